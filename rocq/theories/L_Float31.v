(** Rounding in the pseudo-Voigt distribution: relative errors of the PDF, quantiles. *)
From Coq Require Import Reals List ZArith Lra Lia Psatz.
From Flocq Require Import Core.
From Coquelicot Require Import Rbar.
From Verif Require Import Py Spec M_Num M_Grid M_Thermal M_Dist M_Resonance M_PseudoVoigt M_Float S_Float M_Float2 M_Float3 S_Float3 M_Float4 S_Float4 M_Float6 S_Float6 M_Float8 S_Float8
  S_Resonance S_PseudoVoigt L_PseudoVoigt L_PseudoVoigt2 L_PseudoVoigt4 L_Float L_Float3 L_Float7 L_Float9 L_Float11 L_Float20 L_Float27 L_Float28 L_Float29 L_Float30
  L_FNewton L_FNewton2 L_FNewton3 L_FNewton6.
Import ListNotations.
Open Scope R_scope.

(** Results of [newton] for any functions that are close to the CDF and bounded as the PDF. *)
Lemma scalar_acc p cdf pdf eps n fb q ws x : pv_valid p -> double (pv_energy p) -> double q ->
  (forall x, double x -> double (cdf x) /\ Rabs (cdf x - pvF p x) <= eps) -> (forall x, double x -> Rabs (pdf x) <= 3 / 2 / pv_Gamma p) ->
  fppf_scalar n cdf pdf (pv_energy p) fb q = (ws, Ok (Some [Finite x])) -> inverted ws ->
  exists F, pv_cdf p x = Ok F /\ Rabs (F - q) <= eps + (5 / 10 ^ 8 + Rabs x / 2 ^ 50) / pv_Gamma p.
Proof.
  intros V DE Dq HC HP H I. assert (B0 : 0 < 3 / 2 / pv_Gamma p) by (pose proof V as (PG & _); apply Rdiv_lt_0_compat; lra). unfold fppf_scalar in H.
  destruct (fnewton_scalar n _ _ _) as [y| |e] eqn:EN.
  - injection H as <- <-. apply (good_of p eps V). exact (scalar_good (pvF p) cdf pdf _ _ q B0 (pv_lip p V) Dq HC HP _ _ y DE EN).
  - discriminate.
  - destruct e; try discriminate. injection H as <- _. exfalso. apply I. now left.
Qed.
Lemma array_acc p cdf pdf eps n fb qs ws xs : pv_valid p -> double (pv_energy p) -> List.Forall double qs ->
  (forall x, double x -> double (cdf x) /\ Rabs (cdf x - pvF p x) <= eps) -> (forall x, double x -> Rabs (pdf x) <= 3 / 2 / pv_Gamma p) ->
  fppf_array n cdf pdf (pv_energy p) fb qs = (ws, Ok (Some xs)) -> inverted ws ->
  Forall2 (fun q x => exists e F, x = Finite e /\ pv_cdf p e = Ok F /\ Rabs (F - q) <= eps + (5 / 10 ^ 8 + Rabs e / 2 ^ 50) / pv_Gamma p) qs xs.
Proof.
  intros V DE Dq HC HP H I. assert (B0 : 0 < 3 / 2 / pv_Gamma p) by (pose proof V as (PG & _); apply Rdiv_lt_0_compat; lra). unfold fppf_array in H.
  destruct (fnewton_array n _ _ _) as [[y conv]| |e] eqn:EN.
  - destruct (forallb _ conv) eqn:CV; [|discriminate]. injection H as <- <-.
    pose proof (array_good (pvF p) cdf pdf _ _ B0 (pv_lip p V) HC HP _ qs _ y conv Dq DE EN CV) as GG.
    clear - GG V. induction GG as [|q x qs' xs' Gq _ IH]; cbn; constructor; [|exact IH].
    destruct (good_of p eps V q x Gq) as (F & E1 & E2). exists x, F. auto.
  - discriminate.
  - destruct e; try discriminate. injection H as <- _. exfalso. apply I. now left.
Qed.
Lemma scalar_ends n cdf pdf m fb q x : fnewton_scalar n (fun E => fsub (cdf E) q) pdf m = Ok x -> fppf_scalar n cdf pdf m fb q = ([], Ok (Some [Finite x])).
Proof. intros H. unfold fppf_scalar. rewrite H. reflexivity. Qed.
Lemma array_ends n cdf pdf m fb qs xs : fnewton_array n (fun E => map2 fsub (map cdf E) qs) (map pdf) (map (fun _ => m) qs) = Ok (xs, map (fun _ => true) qs) ->
  fppf_array n cdf pdf m fb qs = ([], Ok (Some (map Finite xs))).
Proof. intros H. unfold fppf_array. rewrite H, all_true. reflexivity. Qed.

Lemma ppf_scalar_eq L p q : fpv_ppf_scalar L p q =
  fppf_scalar maxiter (fun x => number (fpv_cdf L p x)) (fun x => number (fpv_pdf L p x)) (pv_energy p) (fun q => fpv_fallback L p [q]) q.
Proof. unfold fpv_ppf_scalar. reflexivity. Qed.
Lemma ppf_array_eq L p qs : fpv_ppf_array L p qs =
  fppf_array maxiter (fun x => number (fpv_cdf L p x)) (fun x => number (fpv_pdf L p x)) (pv_energy p) (fpv_fallback L p) qs.
Proof. unfold fpv_ppf_array. reflexivity. Qed.

Section Object.
  Variables (L : pvlib) (p' p : pv).
  Hypothesis HL : pvlib_ok L.
  Hypothesis C : close p' p.
  Let E := pv_energy p.
  Let G := pv_Gamma p.
  Let SG := pv_gamma_G p / sqrt 2.
  Let SL := 1 / 2 * pv_gamma_L p.
  Let cdf x := number (fpv_cdf L p' x).
  Let pdf x := number (fpv_pdf L p' x).

  Lemma scales : 0 < G /\ 0 < SG /\ 0 < SL /\ 169 / 400 * G <= SG /\ / SG <= 237 / 100 * / G.
  Proof.
    destruct (scale_ratio p (cl_valid _ _ C)) as (PG & PL & ELam & r & ER & Pr & _ & Br). cbv zeta in *. fold SG SL G in PG, PL, ER, ELam.
    assert (PGam : 0 < G) by apply (cl_valid _ _ C). split; [exact PGam|]. split; [exact PG|]. split; [exact PL|]. rewrite ER, ELam. split; [nra|].
    apply (Rmult_le_reg_r (r * (G / 4) * G)); [apply Rmult_lt_0_compat; [apply Rmult_lt_0_compat; lra|lra]|].
    replace (/ (r * (G / 4)) * (r * (G / 4) * G)) with G by (field; lra). replace (237 / 100 * / G * (r * (G / 4) * G)) with (237 / 400 * r * G) by (field; lra). nra.
  Qed.
  Lemma square_ratio x : ((x - E) / SG) ^ 2 <= 56 / 10 * ((x - E) / G) ^ 2.
  Proof.
    destruct (scale_ratio p (cl_valid _ _ C)) as (PG & PL & ELam & r & ER & Pr & R2 & Br). cbv zeta in *. fold SG SL G in PG, PL, ER, ELam.
    assert (PGam : 0 < G) by apply (cl_valid _ _ C). rewrite ER, ELam. replace (((x - E) / (r * (G / 4))) ^ 2) with (16 / r ^ 2 * ((x - E) / G) ^ 2) by (field; lra).
    apply Rmult_le_compat_r; [apply pow2_ge_0|]. rewrite R2. pose proof ln2_lt. pose proof ln2_pos. replace (16 / (2 / ln 2)) with (8 * ln 2) by (field; lra). lra.
  Qed.
  Lemma parts x : let P := (1 - pv_eta p) * norm_pdf E SG x in let Q := pv_eta p * cauchy_pdf E SL x in 0 <= P /\ 0 <= Q /\ pvf p x = P + Q.
  Proof.
    destruct scales as (_ & PG & PL & _). pose proof (eta_01 p' p C) as E01. pose proof (norm_pdf_pos E SG x PG) as PA.
    assert (PB : 0 < cauchy_pdf E SL x). { unfold cauchy_pdf. pose proof PI_RGT_0. pose proof (pow2_ge_0 ((x - E) / SL)). apply Rinv_0_lt_compat, Rmult_lt_0_compat; [nra|lra]. }
    cbv zeta. split; [apply Rmult_le_pos; lra|]. split; [apply Rmult_le_pos; lra|reflexivity].
  Qed.

  Lemma central_pdf x : double x -> Rabs (x - E) <= 7 * G -> exists v, fpv_pdf L p' x = Ok v /\ Rabs (v - pvf p x) <= (560 + 275 * ((x - E) / G) ^ 2) * u * pvf p x.
  Proof.
    intros Dx B. destruct scales as (PGam & PG & PL & SGG & _). destruct (near_pdf L p' p HL C x Dx) as (v & V1 & V2). { fold E SG. lra. }
    exists v. split; [exact V1|]. eapply Rle_trans; [exact V2|]. fold E SG SL. destruct (parts x) as (P0 & Q0 & ->). pose proof (square_ratio x) as SR.
    set (P := (1 - pv_eta p) * norm_pdf E SG x) in *. set (Q := pv_eta p * cauchy_pdf E SL x) in *. set (Y := ((x - E) / SG) ^ 2) in *. set (t2 := ((x - E) / G) ^ 2) in *.
    assert (T0 : 0 <= t2) by apply pow2_ge_0. pose proof u_pos as U.
    assert (K1 : (49 * Y + 64) * P <= (560 + 275 * t2) * P) by (apply Rmult_le_compat_r; lra). assert (K2 : 560 * Q <= (560 + 275 * t2) * Q) by (apply Rmult_le_compat_r; lra).
    replace ((560 + 275 * t2) * u * (P + Q)) with (((560 + 275 * t2) * P + (560 + 275 * t2) * Q) * u) by ring. apply Rmult_le_compat_r; lra.
  Qed.
  Lemma all_pdf x : pv_Gamma_L p <> 0 -> double x -> Rabs (x - E) <= 2 ^ 63 -> exists v, fpv_pdf L p' x = Ok v /\ Rabs (v - pvf p x) <= 16384 * u * pvf p x.
  Proof.
    intros NZ Dx B. destruct (parts x) as (P0 & Q0 & EF). pose proof u_pos as U. destruct (Rle_dec (Rabs (x - E)) (17 * SG)) as [N|N].
    - destruct (near_pdf L p' p HL C x Dx N) as (v & V1 & V2). exists v. split; [exact V1|]. eapply Rle_trans; [exact V2|]. fold E SG SL. rewrite EF.
      destruct (good_sG p' p C) as [NG _]. pose proof (exponent_k 45 E _ SG x ltac:(lia) Dx (cl_double _ _ C) NG N) as ((Y0 & Y1) & _).
      set (P := (1 - pv_eta p) * norm_pdf E SG x) in *. set (Q := pv_eta p * cauchy_pdf E SL x) in *. set (Y := ((x - E) / SG) ^ 2) in *.
      assert (K1 : (49 * Y + 64) * P <= 16384 * P) by (apply Rmult_le_compat_r; lra). assert (K2 : 560 * Q <= 16384 * Q) by (apply Rmult_le_compat_r; lra).
      replace (16384 * u * (P + Q)) with ((16384 * P + 16384 * Q) * u) by ring. apply Rmult_le_compat_r; lra.
    - destruct (far_pdf L p' p HL C x NZ Dx) as (v & V1 & V2). { fold E SG. lra. } exists v. split; [exact V1|]. eapply Rle_trans; [exact V2|]. apply Rmult_le_compat_r; lra.
  Qed.

  (** ** Where the PDF is not small *)
  Lemma f_distance x : Rabs (x - E) * pvf p x <= / 2.
  Proof.
    destruct scales as (_ & PG & PL & _). pose proof (eta_01 p' p C) as E01.
    assert (A : Rabs (x - E) * norm_pdf E SG x <= / 2).
    { unfold norm_pdf. pose proof (gauss0_half ((x - E) / SG)) as [_ K]. unfold Rdiv in K at 1. rewrite Rabs_mult, Rabs_inv, (Rabs_pos_eq SG) in K by lra. unfold Rdiv at 1. lra. }
    assert (B : Rabs (x - E) * cauchy_pdf E SL x <= / 2).
    { unfold cauchy_pdf. pose proof (cauchy0_half ((x - E) / SL)) as [_ K]. unfold Rdiv in K at 1. rewrite Rabs_mult, Rabs_inv, (Rabs_pos_eq SL) in K by lra.
      pose proof PI_RGT_0. pose proof (pow2_ge_0 ((x - E) / SL)) as S2. set (z := 1 + ((x - E) / SL) ^ 2) in *.
      replace (/ (PI * SL * z)) with (/ SL * / (PI * z)) by (rewrite !Rinv_mult; ring). lra. }
    unfold pvf. fold E SG SL. set (t := pv_eta p) in *. set (a := norm_pdf E SG x) in *. set (b := cauchy_pdf E SL x) in *.
    replace (Rabs (x - E) * ((1 - t) * a + t * b)) with ((1 - t) * (Rabs (x - E) * a) + t * (Rabs (x - E) * b)) by ring.
    assert ((1 - t) * (Rabs (x - E) * a) <= (1 - t) * / 2) by (apply Rmult_le_compat_l; lra). assert (t * (Rabs (x - E) * b) <= t * / 2) by (apply Rmult_le_compat_l; lra). lra.
  Qed.
  Lemma norm_small x : norm_pdf E SG x <= 119 / 100 * / G * exp (- (((x - E) / SG) ^ 2 / 2)).
  Proof.
    destruct scales as (PGam & PG & _ & _ & IG). pose proof PI_3 as P3. unfold norm_pdf, gauss0. set (Y := ((x - E) / SG) ^ 2).
    assert (S2 : 2 <= sqrt (2 * PI)). { replace 2 with (sqrt (2 * 2)) at 1 by (apply sqrt_square; lra). apply sqrt_le_1_alt. lra. }
    assert (I2 : 0 < / sqrt (2 * PI) <= / 2) by (split; [apply Rinv_0_lt_compat; lra|apply Rinv_le_contravar; lra]). assert (0 < / SG) by now apply Rinv_0_lt_compat.
    replace (- Y / 2) with (- (Y / 2)) by field. pose proof (exp_pos (- (Y / 2))) as X. set (e := exp (- (Y / 2))) in *.
    replace (e / sqrt (2 * PI) / SG) with (e * (/ sqrt (2 * PI) * / SG)) by (unfold Rdiv; ring). rewrite (Rmult_comm (119 / 100 * / G)). apply Rmult_le_compat_l; [lra|].
    assert (0 < / G) by now apply Rinv_0_lt_compat. apply Rle_trans with (/ 2 * (237 / 100 * / G)); [apply Rmult_le_compat; lra|lra].
  Qed.
  Lemma exp_pow2 n z : 7 / 10 * INR n <= z -> exp (- z) <= / 2 ^ n.
  Proof. intros H. rewrite <- (exp_ln (/ 2 ^ n)) by apply ipow2_pos. apply exp_le. rewrite ln_Rinv, ln_pow by (lra || apply pow2_pos). pose proof ln2_lt. pose proof (pos_INR n). nra. Qed.

  Lemma upper_pdf s x : / 1000 <= s <= 1 / 4 -> G <= 7 * 10 ^ 3 * s ^ 6 -> double x -> 16 / 7 * s ^ 2 / G <= pvf p x -> Rabs (pdf x - pvf p x) <= / 2 ^ 42 * pvf p x.
  Proof.
    intros Hs HG Dx LO. destruct scales as (PGam & PG & PL & SGG & IG). destruct (parts x) as (P0 & Q0 & EF).
    pose proof u_pos as U. assert (U42 : / 2 ^ 42 = 2048 * u) by (unfold u; lra). rewrite U42.
    assert (S2 : / 10 ^ 6 <= s ^ 2) by (replace (/ 10 ^ 6) with ((/ 1000) ^ 2) by lra; apply pow_incr; lra).
    assert (IGp : 0 < / G) by now apply Rinv_0_lt_compat.
    assert (F0 : 228 / 10 ^ 8 * / G <= pvf p x). { eapply Rle_trans; [|exact LO]. apply Rmult_le_compat_r; lra. }
    pose proof (norm_small x) as NS. pose proof (eta_01 p' p C) as E01. pose proof (norm_pdf_pos E SG x PG) as PA.
    assert (PN : (1 - pv_eta p) * norm_pdf E SG x <= norm_pdf E SG x) by nra.
    destruct (Rle_dec (Rabs (x - E)) (17 * SG)) as [N|N].
    - destruct (near_pdf L p' p HL C x Dx N) as (v & V1 & V2). unfold pdf. rewrite V1. cbn [number]. eapply Rle_trans; [exact V2|]. fold E SG SL.
      destruct (good_sG p' p C) as [NG _]. pose proof (exponent_k 45 E _ SG x ltac:(lia) Dx (cl_double _ _ C) NG N) as ((Y0 & Y1) & _).
      set (P := (1 - pv_eta p) * norm_pdf E SG x) in *. set (Q := pv_eta p * cauchy_pdf E SL x) in *. set (Y := ((x - E) / SG) ^ 2) in *.
      destruct (Rle_dec Y 40) as [B|B].
      + rewrite EF. assert (K1 : (49 * Y + 64) * P <= 2048 * P) by (apply Rmult_le_compat_r; lra). assert (K2 : 560 * Q <= 2048 * Q) by (apply Rmult_le_compat_r; lra).
        replace (2048 * u * (P + Q)) with ((2048 * P + 2048 * Q) * u) by ring. apply Rmult_le_compat_r; lra.
      + assert (X1 : Y * exp (- (Y / 2)) <= 8 * / 2 ^ 21).
        { assert (A : Y <= 8 * exp (Y / 8)) by (pose proof (exp_ineq1_le (Y / 8)); lra). assert (A2 : exp (- (3 / 8 * Y)) <= / 2 ^ 21) by (apply exp_pow2; replace (INR 21) with 21 by (rewrite INR_IZR_INZ; reflexivity); lra).
          replace (- (Y / 2)) with (- (Y / 8) + - (3 / 8 * Y)) by field. rewrite exp_plus, exp_Ropp. pose proof (exp_pos (Y / 8)) as X8. pose proof (exp_pos (- (3 / 8 * Y))).
          apply Rle_trans with (8 * exp (Y / 8) * (/ exp (Y / 8) * exp (- (3 / 8 * Y)))); [apply Rmult_le_compat_r; [apply Rmult_le_pos; [left; now apply Rinv_0_lt_compat|lra]|exact A]|].
          replace (8 * exp (Y / 8) * (/ exp (Y / 8) * exp (- (3 / 8 * Y)))) with (8 * exp (- (3 / 8 * Y))) by (field; lra). lra. }
        assert (X2 : 49 * Y * P <= 100 * (P + Q)).
        { rewrite <- EF. apply Rle_trans with (100 * (228 / 10 ^ 8 * / G)); [|lra]. apply Rle_trans with (49 * Y * (119 / 100 * / G * exp (- (Y / 2)))); [apply Rmult_le_compat_l; lra|].
          replace (49 * Y * (119 / 100 * / G * exp (- (Y / 2)))) with (5831 / 100 * (Y * exp (- (Y / 2))) * / G) by (unfold Rdiv; ring).
          replace (100 * (228 / 10 ^ 8 * / G)) with (228 / 10 ^ 6 * / G) by (field; lra). apply Rmult_le_compat_r; lra. }
        rewrite EF. replace (2048 * u * (P + Q)) with (2048 * (P + Q) * u) by ring. apply Rmult_le_compat_r; lra.
    - assert (Y2 : 289 <= ((x - E) / SG) ^ 2).
      { rewrite <- (Rabs_pos_eq (_ ^ 2)) by apply pow2_ge_0. rewrite <- RPow_abs. unfold Rdiv. rewrite Rabs_mult, Rabs_inv, (Rabs_pos_eq SG) by lra.
        assert (H : 17 <= Rabs (x - E) * / SG). { apply (Rmult_le_reg_r SG); [exact PG|]. rewrite Rmult_assoc, Rinv_l by lra. lra. } nra. }
      destruct (Req_dec (pv_Gamma_L p) 0) as [Z|NZ].
      + exfalso. destruct (cl_zero _ _ C Z) as [_ EZ]. rewrite EF, EZ in F0.
        assert (X : exp (- (((x - E) / SG) ^ 2 / 2)) <= / 2 ^ 30) by (apply exp_pow2; replace (INR 30) with 30 by (rewrite INR_IZR_INZ; reflexivity); lra).
        assert (norm_pdf E SG x <= 119 / 100 * / G * / 2 ^ 30) by (eapply Rle_trans; [exact NS|]; apply Rmult_le_compat_l; lra). lra.
      + destruct (far_pdf L p' p HL C x NZ Dx) as (v & V1 & V2).
        { fold E SG. split; [lra|]. pose proof (f_distance x) as FD. pose proof (Rabs_pos (x - E)) as RP.
          assert (G2 : G <= 2). { eapply Rle_trans; [exact HG|]. assert (s ^ 6 <= (1 / 4) ^ 6) by (apply pow_incr; lra). lra. }
          assert (I2 : / 2 <= / G) by (apply Rinv_le_contravar; lra).
          assert (Rabs (x - E) * (114 / 10 ^ 8) <= / 2) by (eapply Rle_trans; [|exact FD]; apply Rmult_le_compat_l; lra). lra. }
        unfold pdf. rewrite V1. cbn [number]. eapply Rle_trans; [exact V2|]. apply Rmult_le_compat_r; lra.
  Qed.

  (** ** Quantiles *)
  Lemma ev_cdf x : double x -> double (cdf x) /\ Rabs (cdf x - pvF p x) <= / 2 ^ 44.
  Proof. intros Dx. destruct (cdf_error L p' p HL C x Dx) as (v & V1 & V2 & V3). unfold cdf. rewrite V1. cbn [number]. split; [exact V2|]. eapply Rle_trans; [exact V3|]. unfold u. lra. Qed.
  Lemma ev_bound x : double x -> Rabs (pdf x) <= 3 / 2 / pv_Gamma p.
  Proof. intros _. destruct (pdf_bound L p' p HL C x) as (v & V1 & _ & V3). unfold pdf. rewrite V1. exact V3. Qed.
  Lemma bound_pos : 0 < 3 / 2 / pv_Gamma p.
  Proof. pose proof (cl_valid _ _ C) as (PG & _). apply Rdiv_lt_0_compat; lra. Qed.
  Lemma ppf_accuracy q ws x : double q -> fpv_ppf_scalar L p' q = (ws, Ok (Some [Finite x])) -> inverted ws ->
    exists F, pv_cdf p x = Ok F /\ Rabs (F - q) <= / 2 ^ 44 + (5 / 10 ^ 8 + Rabs x / 2 ^ 50) / pv_Gamma p.
  Proof.
    intros Dq H I. rewrite ppf_scalar_eq, (cl_energy _ _ C) in H.
    exact (scalar_acc p cdf pdf (/ 2 ^ 44) maxiter _ q ws x (cl_valid _ _ C) (cl_double _ _ C) Dq ev_cdf ev_bound H I).
  Qed.
  Lemma ppf_accuracy_array qs ws xs : List.Forall double qs -> fpv_ppf_array L p' qs = (ws, Ok (Some xs)) -> inverted ws ->
    Forall2 (fun q x => exists e F, x = Finite e /\ pv_cdf p e = Ok F /\ Rabs (F - q) <= / 2 ^ 44 + (5 / 10 ^ 8 + Rabs e / 2 ^ 50) / pv_Gamma p) qs xs.
  Proof.
    intros Dq H I. rewrite ppf_array_eq, (cl_energy _ _ C) in H.
    exact (array_acc p cdf pdf (/ 2 ^ 44) maxiter _ qs ws xs (cl_valid _ _ C) (cl_double _ _ C) Dq ev_cdf ev_bound H I).
  Qed.
  Lemma G_low : / 10 ^ 20 <= G.
  Proof. destruct (cl_Gamma _ _ C) as [_ [K _]]. fold G in K. assert (/ 10 ^ 20 <= / 2 ^ 63) by (apply Rinv_le_contravar; lra). lra. Qed.
  Lemma E_pos : 0 <= E.
  Proof. pose proof (cl_range _ _ C) as K. apply rng_pos in K. fold E in K. lra. Qed.
  Lemma ppf_found s q : double q -> / 1000 <= s -> 2 * s <= q <= 1 - 2 * s -> G <= 7 * 10 ^ 3 * s ^ 6 -> E <= 2 * 10 ^ 7 * s ^ 4 -> E <= 10 ^ 15 * (s * G) ->
    exists x, fpv_ppf_scalar L p' q = ([], Ok (Some [Finite x])).
  Proof.
    intros Dq Hs Hq HG HE HEG. pose proof (cl_valid _ _ C) as V. assert (Hs' : / 10 ^ 4 <= s <= 1 / 4) by lra.
    assert (S3 : / 10 ^ 9 <= s ^ 3) by (replace (/ 10 ^ 9) with ((/ 1000) ^ 3) by lra; apply pow_incr; lra). pose proof G_low as GL. pose proof E_pos as EP.
    assert (S6 : 0 < s ^ 6) by (apply pow_lt; lra).
    destruct (central_ffound p cdf pdf (/ 2 ^ 44) (/ 2 ^ 42) s q V) as (x & Ex); try assumption; try lra.
    - exact ev_cdf.
    - intros y Dy Ly. apply (upper_pdf s); try assumption; lra.
    - exact (cl_double _ _ C).
    - fold G. lra.
    - apply (rho_4 p (/ 2 ^ 44) (/ 2 ^ 42) s (45 / 10 ^ 14) V EP Hs' ltac:(lra) ltac:(lra) (7 * 10 ^ 3)); fold G E; lra.
    - apply (rho_G p (/ 2 ^ 44) (/ 2 ^ 42) s (45 / 10 ^ 14) V EP Hs' ltac:(lra) GL); fold G E; lra.
    - exists x. rewrite ppf_scalar_eq, (cl_energy _ _ C). exact (scalar_ends maxiter cdf pdf _ _ q x Ex).
  Qed.
  Lemma ppf_found_array s qs : List.Forall double qs -> / 300 <= s <= 1 / 4 -> List.Forall (fun q => 2 * s <= q <= 1 - 2 * s) qs -> G <= 7 * 10 ^ 3 * s ^ 6 ->
    E <= 2 * 10 ^ 7 * s ^ 4 -> E <= 10 ^ 14 * (s ^ 2 * G) ->
    exists xs, List.length xs = List.length qs /\ fpv_ppf_array L p' qs = ([], Ok (Some (map Finite xs))).
  Proof.
    intros Dq Hs Hq HG HE HEG. pose proof (cl_valid _ _ C) as V. assert (Hs' : / 10 ^ 4 <= s <= 1 / 4) by lra.
    assert (S4 : (/ 300) ^ 4 <= s ^ 4) by (apply pow_incr; lra). pose proof G_low as GL. pose proof E_pos as EP. assert (S6 : 0 < s ^ 6) by (apply pow_lt; lra).
    destruct (central_array p cdf pdf (/ 2 ^ 44) (/ 2 ^ 42) s V) with (qs := qs) as (xs & Lx & Ex); try assumption; try lra.
    - exact ev_cdf.
    - intros y Dy Ly. apply (upper_pdf s); try assumption; lra.
    - exact (cl_double _ _ C).
    - fold G. lra.
    - apply (rho_4 p (/ 2 ^ 44) (/ 2 ^ 42) s (45 / 10 ^ 14) V EP Hs' ltac:(lra) ltac:(lra) (7 * 10 ^ 3)); fold G E; lra.
    - apply (rho_s2G p (/ 2 ^ 44) (/ 2 ^ 42) s (45 / 10 ^ 14) V EP Hs' ltac:(lra)); fold G E; lra.
    - exists xs. split; [exact Lx|]. rewrite ppf_array_eq, (cl_energy _ _ C). exact (array_ends maxiter cdf pdf _ _ qs xs Ex).
  Qed.
  (** The fallback gives finite numbers. *)
  Lemma fallback_finite qs : List.Forall (fun q => double q /\ 0 < q < 1) qs -> exists xs, fpv_fallback L p' qs = Ok (Some (map Finite xs)) /\ List.length xs = List.length qs.
  Proof.
    destruct (good_sG p' p C) as [NG _]. destruct (good_sL p' p C) as [NL _]. pose proof (near_pos _ _ _ NG) as PG. pose proof (near_pos _ _ _ NL) as PL.
    intros H. unfold fpv_fallback. 
    set (f := fun q : R => _).
    assert (One : forall q, 0 < q < 1 -> exists y, f q = Ok (Finite y)).
    { intros q Hq. unfold f, fppf. destruct (Rlt_dec 0 (fquo (pv_gamma_G p') (fsqrt 2))) as [_|F]; [|contradiction]. destruct (Rlt_dec 0 (fmul (1 / 2) (pv_gamma_L p'))) as [_|F]; [|contradiction].
      destruct (Rlt_dec q 0); [lra|]. destruct (Rlt_dec 1 q); [lra|]. destruct (Req_EM_T q 0); [lra|]. destruct (Req_EM_T q 1); [lra|]. eexists. reflexivity. }
    assert (K : exists xs, traverse f qs = Ok (map Finite xs) /\ List.length xs = List.length qs).
    { clearbody f. clear - H One. induction H as [|q qs [Dq Hq] _ (xs & IH & IL)]; [exists []; split; reflexivity|]. destruct (One q Hq) as (y & Ey).
      exists (y :: xs). unfold traverse in *. cbn [map sequence]. rewrite Ey, IH. split; [reflexivity|cbn; now rewrite IL]. }
    destruct K as (xs & K & KL). exists xs. split; [|exact KL]. rewrite K. reflexivity.
  Qed.
End Object.
