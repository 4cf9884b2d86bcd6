(** The pseudo-Voigt distribution with binary64 numbers, at all energies. *)
From Coq Require Import Reals List ZArith Bool Lra Lia Psatz.
From Coquelicot Require Import Rbar.
From Flocq Require Import Core BinarySingleNaN.
From Verif Require Import Py M_Num M_Grid M_Dist M_Thermal M_Constituents M_PseudoVoigt M_Float S_Float M_Float2 M_Float3 M_Float4 S_Float4 M_Float6 S_Float6 M_Float8 S_Float8 M_Ieee M_Ieee2 M_Ieee5 S_Ieee S_Ieee5 M_Ieee7 S_Ieee7
  L_PseudoVoigt L_Float L_Float7 L_Float9 L_Float12 L_Float22 L_Float27 L_Float28 L_Float29 L_Float30 L_Float31 L_Ieee L_Ieee2 L_Ieee4 L_Ieee5 L_Ieee6 L_Ieee7 L_Ieee8 L_Ieee9 L_Ieee13 L_Ieee20 L_Ieee24 L_Ieee25.
Import ListNotations.
Open Scope R_scope.

Lemma rnd_tiny x : Rabs x < bpow radix2 (-1075) -> rnd x = 0.
Proof.
  intros H. destruct (Req_dec (rnd x) 0) as [E|E]; [exact E|exfalso].
  assert (L : bpow radix2 (-1074) <= Rabs (rnd x)).
  { apply (generic_format_ge_bpow radix2 fexp64); [intros e; unfold fexp64, FLT_exp; lia|now apply Rabs_pos_lt|apply generic_format_abs, rnd_double]. }
  pose proof (error_le_half_ulp radix2 fexp64 (fun n => negb (Z.even n)) x) as K.
  assert (B : bpow radix2 (-1074) = 2 * bpow radix2 (-1075)) by (change (-1074)%Z with (1 + -1075)%Z; rewrite bpow_plus; reflexivity).
  assert (U : ulp radix2 fexp64 x = bpow radix2 (-1074)).
  { apply ulp_FLT_small; [reflexivity|]. eapply Rlt_le_trans; [exact H|]. apply bpow_le. lia. }
  rewrite U in K. change (Rabs (rnd x - x) <= / 2 * bpow radix2 (-1074)) in K. pose proof (Rabs_triang_inv x (rnd x)) as T. rewrite Rabs_minus_sym in K. pose proof (Rabs_triang_inv (rnd x) x) as T2. rewrite Rabs_minus_sym in T2. lra.
Qed.
Lemma quo_over a b x y : rep a x -> rep b y -> y <> 0 -> big <= Rabs (fquo x y) -> exists s, bquo a b = B754_infinity s.
Proof.
  intros [Fa Ea] [Fb Eb] N H. rewrite <- Eb in N. pose proof (Bdiv_correct 53 1024 prec_53 emax_1024 mode_NE a b N) as C.
  rewrite rnd_eq, Ea, Eb in C. fold (fquo x y) in C. rewrite Rlt_bool_false in C by exact H. eexists. apply L_Ieee20.overflow_inf. exact C.
Qed.
Lemma inf_quo s b x l h : win b x l h -> bquo (B754_infinity s) b = B754_infinity s.
Proof. intros W. pose proof (win_pos _ _ _ _ W) as P. destruct W as [[F E] _]. destruct (finite_pos b) as (m & e & H & ->); [exact F|now rewrite E|]. now destruct s. Qed.
Lemma rnd_abs x : Rabs (rnd x) = rnd (Rabs x).
Proof. symmetry. apply round_NE_abs. typeclasses eauto. Qed.
Lemma rnd_mono_abs x y : Rabs x <= Rabs y -> Rabs (rnd x) <= Rabs (rnd y).
Proof. intros H. rewrite !rnd_abs. apply round_le; try typeclasses eauto. exact H. Qed.

Section Line.
  Variables (L : bpvlib) (V : pvlib) (b : bpv) (p' p : pv).
  Hypotheses (KV : pvlib_ok V) (SV : same_library L V) (C : close p' p) (A : pv_agree b p').
  Notation bl := (bp_energy b).
  Notation bsN := (bquo (bp_gamma_G b) (bsqrt (of_Z 2))).
  Notation bsC := (bmul (literal 1 2) (bp_gamma_L b)).
  Notation e := (pv_energy p').
  Notation tN := (fquo (pv_gamma_G p') (fsqrt 2)).
  Notation tC := (fmul (1 / 2) (pv_gamma_L p')).
  Notation bcdf' := (bpv_cdf L b).
  Notation bpdf' := (bpv_pdf (bv_b L) b).
  Notation cdf' := (fun x => number (fpv_cdf V p' x)).
  Notation pdf' := (fun x => number (fpv_pdf V p' x)).

  Lemma scales_order : tC <= tN <= 4 * tC.
  Proof using C.
    destruct (good_sG p' p C) as [(P1 & A1 & A2) _]. destruct (good_sL p' p C) as [(P2 & B1 & B2) _].
    destruct (L_Float28.scale_ratio p (cl_valid _ _ C)) as (_ & _ & _ & r & ER & Pr & _ & Br). cbv zeta in *.
    pose proof (bernoulli 45) as Q1. pose proof (bernoulli 40) as Q2. pose proof (qk_pos 45) as Q3. pose proof (qk_pos 40) as Q4.
    replace (INR 45) with 45 in Q1 by (rewrite INR_IZR_INZ; reflexivity). replace (INR 40) with 40 in Q2 by (rewrite INR_IZR_INZ; reflexivity). rewrite u_num in *.
    set (SG := pv_gamma_G p / sqrt 2) in *. set (SL := 1 / 2 * pv_gamma_L p) in *. set (x := q ^ 45) in *. set (y := q ^ 40) in *.
    assert (X : 99 / 100 <= x) by lra. assert (Y : 99 / 100 <= y) by lra. clear Q1 Q2. assert (S1 : 169 / 100 * SL <= SG) by (rewrite ER; apply Rmult_le_compat_r; lra). assert (S2 : SG <= 2 * SL) by (rewrite ER; apply Rmult_le_compat_r; lra). clear ER.
    assert (PN : 0 < tN) by (apply Rlt_le_trans with (SG * x); [apply Rmult_lt_0_compat; lra|exact A1]). assert (PC : 0 < tC) by (apply Rlt_le_trans with (SL * y); [apply Rmult_lt_0_compat; lra|exact B1]).
    set (g := tN) in *. set (h := tC) in *. clearbody g h.
    assert (H1 : 99 / 100 * h <= SL) by (apply Rle_trans with (h * y); [rewrite (Rmult_comm h); apply Rmult_le_compat_r; lra|exact B2]).
    assert (H2 : 99 / 100 * SG <= g) by (apply Rle_trans with (SG * x); [rewrite (Rmult_comm SG); apply Rmult_le_compat_r; lra|exact A1]).
    assert (H3 : 99 / 100 * g <= SG) by (apply Rle_trans with (g * x); [rewrite (Rmult_comm g); apply Rmult_le_compat_r; lra|exact A2]).
    assert (H4 : 99 / 100 * SL <= h) by (apply Rle_trans with (SL * y); [rewrite (Rmult_comm SL); apply Rmult_le_compat_r; lra|exact B1]). lra.
  Qed.
  Lemma tC_pos : 0 < tC. Proof using A. exact (win_pos _ _ _ _ (pa_gamma_L _ _ A)). Qed.
  Lemma tN_pos : 0 < tN. Proof using A. exact (win_pos _ _ _ _ (pa_gamma_G _ _ A)). Qed.

  Definition yC (x : b64) : b64 := bquo (bsub x bl) bsC.
  Definition within (x : b64) : Prop := is_finite (badd (of_Z 1) (bmul (yC x) (yC x))) = true.
  Lemma within_reps x X : rep x X -> within x -> rep (bsub x bl) (fsub X e) /\ rep (yC x) (fquo (fsub X e) tC) /\
    rep (bmul (yC x) (yC x)) (fmul (fquo (fsub X e) tC) (fquo (fsub X e) tC)) /\
    rep (badd (of_Z 1) (bmul (yC x) (yC x))) (fadd 1 (fmul (fquo (fsub X e) tC) (fquo (fsub X e) tC))).
  Proof using A.
    intros [Fx Ex] W. destruct (add_finite _ _ W) as (_ & F2 & E2). destruct (mul_finite _ _ F2) as (F3 & _ & E3).
    destruct (win_rep _ _ _ _ (pa_gamma_L _ _ A)) as [Fs Es]. destruct (quo_finite _ _ Fs F3) as (F4 & _ & E4). destruct (sub_finite _ _ F4) as (_ & _ & E5).
    destruct (win_rep _ _ _ _ (pa_energy _ _ A)) as [_ Ee]. rewrite Ex, Ee in E5. rewrite E5, Es in E4. fold (yC x) in E4. rewrite E4 in E3. rewrite E3 in E2. destruct one_rep as [_ E1]. rewrite E1 in E2. repeat split; assumption.
  Qed.
  Lemma within_finite x : within x -> is_finite x = true.
  Proof using A. intros W. destruct (add_finite _ _ W) as (_ & F2 & _). destruct (mul_finite _ _ F2) as (F3 & _ & _). destruct (win_rep _ _ _ _ (pa_gamma_L _ _ A)) as [Fs _]. destruct (quo_finite _ _ Fs F3) as (F4 & _ & _). now destruct (sub_finite _ _ F4). Qed.
  Lemma cauchy_in x X : rep x X -> within x -> exists v, fcauchy_pdf e tC X = Ok v /\ bnd (bcauchy_pdf bl bsC x) v (0 - -83).
  Proof using A.
    intros Rx W. destruct (within_reps x X Rx W) as (_ & _ & _ & R4). pose proof (pa_gamma_L _ _ A) as Ws. unfold fcauchy_pdf, bcauchy_pdf. rewrite (lt_zero _ _ _ _ Ws). pose proof tC_pos. destruct (Rlt_dec 0 tC); [|lra]. eexists. split; [reflexivity|]. fold (yC x).
    set (y := fquo (fsub X e) tC) in *. assert (W4 : win (badd (of_Z 1) (bmul (yC x) (yC x))) (fadd 1 (fmul y y)) 0 1024).
    { split; [exact R4|]. pose proof (rep_big _ _ R4) as B. split; [|apply Rabs_lt_inv in B; apply Rlt_le, B]. change (bpow radix2 0) with 1. apply rnd_ge; [apply double_1|]. pose proof (square_nonneg y). lra. }
    pose proof (win_Z 1 ltac:(lia)) as W1. cbn [Z.log2 Z.add] in W1.
    pose proof (win_quo _ _ _ _ _ _ _ _ W1 win_pi ltac:(lia) ltac:(lia)) as W5. pose proof (bnd_quo _ _ _ _ _ _ _ (win_bnd _ _ _ _ W5) W4 ltac:(lia)) as B6.
    pose proof (bnd_quo _ _ _ _ _ _ _ B6 Ws ltac:(lia)) as B7. eapply bnd_weaken; [exact B7|lia].
  Qed.
  Lemma yN_in x X : rep x X -> within x -> rep (bquo (bsub x bl) bsN) (fquo (fsub X e) tN) /\ Rabs (fquo (fsub X e) tN) <= Rabs (fquo (fsub X e) tC).
  Proof using A C.
    intros Rx W. destruct (within_reps x X Rx W) as (R1 & R2 & _ & _). pose proof tC_pos as P. pose proof tN_pos as PN. pose proof scales_order as [O _].
    assert (M : Rabs (fquo (fsub X e) tN) <= Rabs (fquo (fsub X e) tC)).
    { apply rnd_mono_abs. clear W R1 R2 Rx. set (d := fsub X e). set (g := tN) in *. set (h := tC) in *. clearbody d g h. unfold Rdiv. rewrite !Rabs_mult, !Rabs_inv, (Rabs_pos_eq g), (Rabs_pos_eq h) by lra. apply Rmult_le_compat_l; [apply Rabs_pos|]. apply Rinv_le; assumption. }
    split; [|exact M]. apply quo_rep; [exact R1|exact (win_rep _ _ _ _ (pa_gamma_G _ _ A))|lra|]. eapply Rle_lt_trans; [exact M|exact (rep_big _ _ R2)].
  Qed.
  Lemma norm_in x X : rep x X -> within x -> exists v, fnorm_pdf (v_c V) e tN X = Ok v /\ bnd (bnorm_pdf (bv_b L) bl bsN x) v (0 - -83).
  Proof using All.
    intros Rx W. destruct (within_reps x X Rx W) as (_ & _ & R3 & _). destruct (yN_in x X Rx W) as [R2 M]. pose proof (pa_gamma_G _ _ A) as Ws. unfold fnorm_pdf, bnorm_pdf. rewrite (lt_zero _ _ _ _ Ws). pose proof tN_pos. destruct (Rlt_dec 0 tN); [|lra]. eexists. split; [reflexivity|].
    set (y := fquo (fsub X e) tN) in *. set (z := fquo (fsub X e) tC) in *. set (yb := bquo (bsub x bl) bsN) in *.
    assert (B3 : bnd (bmul yb yb) (fmul y y) 1024).
    { assert (K : Rabs (fmul y y) <= Rabs (fmul z z)) by (apply rnd_mono_abs; rewrite !Rabs_mult; apply Rmult_le_compat; try apply Rabs_pos; exact M). pose proof (rep_big _ _ R3) as B. split; [apply mul_rep; [exact R2|exact R2|lra]|]. change (bpow radix2 1024) with big. lra. }
    pose proof (bnd_quo _ _ _ _ _ _ _ (bnd_opp _ _ _ B3) two_win ltac:(lia)) as B4. set (g := fquo (- fmul y y) 2) in *.
    assert (Hz : g <= 0) by (apply fquo2_neg, square_nonneg). assert (Dz : double g) by apply rnd_double.
    pose proof (exp_bound2 V KV g Dz Hz) as K2. destruct SV as ((( _ & SE & _) & _) & _).
    assert (B5 : bnd (b_exp (bv_b L) (bquo (bopp (bmul yb yb)) (of_Z 2))) (c_exp (v_c V) g) 1) by (split; [apply SE; [apply B4|exact Hz]|exact K2]).
    pose proof (bnd_quo _ _ _ _ _ _ _ B5 root_win ltac:(lia)) as B6. pose proof (bnd_quo _ _ _ _ _ _ _ B6 Ws ltac:(lia)) as B7. eapply bnd_weaken; [exact B7|lia].
  Qed.
  Lemma pdf_in x X : rep x X -> within x -> rep (bpdf' x) (pdf' X).
  Proof using All.
    intros Rx W. destruct (norm_in x X Rx W) as (a & Ea & Ba). destruct (cauchy_in x X Rx W) as (c & Ec & Bc). unfold bpv_pdf, fpv_pdf. rewrite Ea. cbn [bind]. rewrite Ec. cbn [bind number]. apply (mix_agree _ _ _ _ _ _ (pa_eta _ _ A) Ba Bc).
  Qed.
  Lemma cdf_finite d f D x X bs s : fdist_ok f D -> same_dist d D -> win bs s (-83) 81 -> rep (bquo (bsub x bl) bs) (fquo (fsub X e) s) ->
    exists v, fcdf D e s X = Ok v /\ rep (bcdf d bl bs x) v /\ 0 <= v <= 1.
  Proof using A.
    intros OK SD Ws R. unfold fcdf, bcdf. rewrite (lt_zero _ _ _ _ Ws). pose proof (win_pos _ _ _ _ Ws). destruct (Rlt_dec 0 s); [|lra]. eexists. split; [reflexivity|]. split; [|apply (proj1 OK), rnd_double].
    pose proof (proj1 SD _ _ R) as RC. destruct R as [F _]. destruct (bquo (bsub x bl) bs); try discriminate; exact RC.
  Qed.
  Lemma bnd_unit a v : rep a v -> 0 <= v <= 1 -> bnd a v (0 - -83).
  Proof using. intros R H. split; [exact R|]. rewrite Rabs_pos_eq by lra. apply Rle_trans with (bpow radix2 0); [cbn; lra|apply bpow_le; lia]. Qed.
  Lemma cdf_in x X : rep x X -> within x -> bnd (bcdf' x) (cdf' X) 520.
  Proof using All.
    intros Rx W. destruct (within_reps x X Rx W) as (_ & R2 & _ & _). destruct (yN_in x X Rx W) as [RN _]. destruct KV as (_ & _ & _ & _ & KN & KC). destruct SV as (_ & SN & SC).
    destruct (cdf_finite _ _ _ x X _ _ KN SN (pa_gamma_G _ _ A) RN) as (a & Ea & Ra & Ba). destruct (cdf_finite _ _ _ x X _ _ KC SC (win_weaken _ _ _ _ (-83) 81 (pa_gamma_L _ _ A) ltac:(lia) ltac:(lia)) R2) as (c & Ec & Rc & Bc).
    unfold bpv_cdf, fpv_cdf. rewrite Ea. cbn [bind]. rewrite Ec. cbn [bind number]. apply (mix_agree _ _ _ _ _ _ (pa_eta _ _ A)); apply bnd_unit; assumption.
  Qed.

  (** ** Far from the line *)
  Lemma zero_quo z bs s l h : win bs s l h -> rep z 0 -> rep (bquo z bs) 0.
  Proof using. intros W R. pose proof (win_pos _ _ _ _ W). assert (E : fquo 0 s = 0) by (unfold fquo; replace (0 / s) with 0 by (field; lra); apply rnd_0). rewrite <- E. apply quo_rep; [exact R|exact (win_rep _ _ _ _ W)|lra|]. rewrite E, Rabs_R0. apply bpow_gt_0. Qed.
  Lemma quo_inf c : is_finite c = true -> rep (bquo c (B754_infinity false)) 0.
  Proof using. destruct c as [s|s| |s m e' H]; try discriminate; intros _; split; reflexivity. Qed.
  Lemma exp_far V0 : pvlib_ok V0 -> forall z, double z -> z <= - 1100 -> Rabs (c_exp (v_c V0) z) <= bpow radix2 (-1074) + bpow radix2 (-1090).
  Proof using.
    intros (_ & K & _) z Dz Hz. specialize (K z Dz ltac:(lra)). unfold unit_roundoff, half_smallest in K.
    assert (X : exp z <= bpow radix2 (-1100)).
    { apply Rle_trans with (exp (Ropp 1100)); [destruct Hz as [Hz| ->]; [left; now apply exp_increasing|right; reflexivity]|]. rewrite exp_Ropp. change (-1100)%Z with (- Z.of_nat 1100)%Z. rewrite bpow_opp, bpow_pow. apply Rinv_le_contravar; [apply pow_lt; lra|]. pose proof (exp_2 1100) as E2. replace (INR 1100) with 1100 in E2 by (rewrite INR_IZR_INZ; reflexivity). exact E2. }
    assert (B1 : bpow radix2 (-1074) = 2 * bpow radix2 (-1075)) by (change (-1074)%Z with (1 + -1075)%Z; rewrite bpow_plus; reflexivity).
    assert (B2 : bpow radix2 (-1090) = 1024 * bpow radix2 (-1100)) by (change (-1090)%Z with (10 + -1100)%Z; rewrite bpow_plus; reflexivity).
    replace (/ 2 ^ 1075) with (bpow radix2 (-1075)) in K by (change (-1075)%Z with (- Z.of_nat 1075)%Z; now rewrite bpow_opp, bpow_pow).
    pose proof (exp_pos z) as P. apply Rabs_le_inv in K. apply Rabs_le. set (v := c_exp (v_c V0) z) in *. set (w := exp z) in *. assert (U : 0 < / 2 ^ 53 <= 1) by (simpl pow; lra). pose proof (bpow_gt_0 radix2 (-1075)). set (r := / 2 ^ 53) in *.
    assert (0 <= 2 * r * w <= 2 * w) by (split; [apply Rmult_le_pos; lra|apply Rmult_le_compat_r; lra]). lra.
  Qed.
  Lemma root_low : 5 / 2 <= fsqrt (fmul 2 np_pi).
  Proof using.
    assert (P : 25 / 4 <= fmul 2 np_pi).
    { apply rnd_ge; [|rewrite np_pi_value; lra]. replace (25 / 4) with (IZR 25 * bpow radix2 (-2)) by (cbn; lra). apply (L_Float22.double_nu 25 (-2)); [lia|reflexivity]. }
    apply rnd_ge; [replace (5 / 2) with (IZR 5 * bpow radix2 (-1)) by (cbn; lra); apply (L_Float22.double_nu 5 (-1)); [lia|reflexivity]|].
    replace (5 / 2) with (sqrt (25 / 4)); [now apply sqrt_le_1_alt|]. replace (25 / 4) with (Rsqr (5 / 2)) by (unfold Rsqr; lra). apply sqrt_Rsqr. lra.
  Qed.
  Definition vast (w : b64) : Prop := (exists W, rep w W /\ bpow radix2 990 <= W) \/ w = B754_infinity false.
  Lemma exp_vast w : vast w -> rep (bquo (b_exp (bv_b L) (bquo (bopp w) (of_Z 2))) (bsqrt (bmul (of_Z 2) bpi))) 0.
  Proof using KV SV.
    destruct SV as (((_ & SE & SI) & _) & _). intros [(W & R & H)| ->].
    - pose proof (bpow_gt_0 radix2 990) as P0. assert (Bn : bnd w W 1024). { split; [exact R|]. apply Rlt_le, (rep_big _ _ R). }
      pose proof (bnd_quo _ _ _ _ _ _ _ (bnd_opp _ _ _ Bn) two_win ltac:(lia)) as B4. set (z := fquo (- W) 2) in *.
      assert (Hz : z <= - bpow radix2 989).
      { apply rnd_le_d; [apply generic_format_opp, bpow_double; lia|]. assert (bpow radix2 990 = 2 * bpow radix2 989) by (change 990%Z with (1 + 989)%Z; rewrite bpow_plus; reflexivity). lra. }
      assert (Z1 : z <= - 1100) by (assert (bpow radix2 11 <= bpow radix2 989) by (apply bpow_le; lia); change (bpow radix2 11) with 2048 in *; lra).
      pose proof (exp_far V KV z (rnd_double _) Z1) as X. pose proof (SE _ _ (bnd_rep _ _ _ B4) ltac:(lra)) as RE. pose proof root_low as RL. pose proof (win_rep _ _ _ _ root_win) as RR.
      assert (Q : fquo (c_exp (v_c V) z) (fsqrt (fmul 2 np_pi)) = 0).
      { apply rnd_tiny. set (t := fsqrt (fmul 2 np_pi)) in *. clearbody t. set (v := c_exp (v_c V) z) in *. clearbody v. unfold Rdiv. rewrite Rabs_mult, Rabs_inv, (Rabs_pos_eq t) by lra.
        assert (I : / t <= 2 / 5) by (replace (2 / 5) with (/ (5 / 2)) by field; apply Rinv_le_contravar; lra). assert (I0 : 0 < / t) by (apply Rinv_0_lt_compat; lra).
        assert (B1 : bpow radix2 (-1074) = 2 * bpow radix2 (-1075)) by (change (-1074)%Z with (1 + -1075)%Z; rewrite bpow_plus; reflexivity).
        assert (B2 : bpow radix2 (-1075) = 32768 * bpow radix2 (-1090)) by (change (-1075)%Z with (15 + -1090)%Z; rewrite bpow_plus; reflexivity). pose proof (bpow_gt_0 radix2 (-1090)).
        apply Rle_lt_trans with ((bpow radix2 (-1074) + bpow radix2 (-1090)) * (2 / 5)); [apply Rmult_le_compat; try apply Rabs_pos; lra|lra]. }
      rewrite <- Q. apply quo_rep; [exact RE|exact RR|lra|]. rewrite Q, Rabs_R0. apply bpow_gt_0.
    - change (bquo (bopp (B754_infinity false)) (of_Z 2)) with (B754_infinity true : b64). rewrite SI. apply (zero_quo _ _ _ _ _ root_win). exact zero_rep.
  Qed.
  Lemma far_vast x : bnanb x = false -> ~ within x -> vast (bmul (bquo (bsub x bl) bsN) (bquo (bsub x bl) bsN)).
  Proof using A C.
    intros Nx NW. pose proof (pa_gamma_G _ _ A) as WN. pose proof (pa_gamma_L _ _ A) as WC. pose proof tC_pos as PC. pose proof tN_pos as PN. pose proof scales_order as [_ O].
    assert (Nd : bnanb (bsub x bl) = false) by (apply sub_not_nan; [exact Nx|apply (win_rep _ _ _ _ (pa_energy _ _ A))]).
    assert (Inf : forall s, bmul (B754_infinity s) (B754_infinity s) = (B754_infinity false : b64)) by (intros []; reflexivity).
    destruct (is_finite (bsub x bl)) eqn:F.
    - pose proof (rep_refl _ F) as R. set (D := B2R (bsub x bl)) in *.
      assert (HD : bpow radix2 500 * tC <= Rabs D).
      { apply Rnot_lt_le. intros H. apply NW. unfold within, yC. assert (Bq : bnd (bquo (bsub x bl) bsC) (fquo D tC) 500).
        { assert (K : Rabs (D / tC) <= bpow radix2 500). { clear - H PC. set (t := tC) in *. clearbody t D. unfold Rdiv. rewrite Rabs_mult, Rabs_inv, (Rabs_pos_eq t) by lra. apply (Rmult_le_reg_r t); [exact PC|]. rewrite Rmult_assoc, Rinv_l, Rmult_1_r by lra. lra. }
          assert (K' : Rabs (fquo D tC) <= bpow radix2 500) by (apply rnd_bpow; [lia|exact K]). split; [|exact K']. apply quo_rep; [exact R|exact (win_rep _ _ _ _ WC)|lra|]. eapply Rle_lt_trans; [exact K'|apply bpow_big; lia]. }
        pose proof (win_Z 1 ltac:(lia)) as W1. cbn [Z.log2 Z.add] in W1. apply (bnd_rep _ _ _ (bnd_add _ _ _ _ _ _ (win_bnd _ _ _ _ W1) (bnd_mul _ _ _ _ _ _ Bq Bq ltac:(lia)) ltac:(lia))). }
      assert (HN : bpow radix2 498 <= Rabs (D / tN)).
      { clear - HD PC PN O. set (t := tC) in *. set (g := tN) in *. clearbody t g D. unfold Rdiv. rewrite Rabs_mult, Rabs_inv, (Rabs_pos_eq g) by lra. apply (Rmult_le_reg_r g); [exact PN|]. rewrite Rmult_assoc, Rinv_l, Rmult_1_r by lra.
        assert (B : bpow radix2 500 = 4 * bpow radix2 498) by (change 500%Z with (2 + 498)%Z; rewrite bpow_plus; reflexivity). pose proof (bpow_gt_0 radix2 498). nra. }
      assert (HQ : bpow radix2 498 <= Rabs (fquo D tN)) by (unfold fquo; rewrite rnd_abs; apply rnd_ge; [apply bpow_double; lia|exact HN]).
      destruct (Rlt_dec (Rabs (fquo D tN)) big) as [S|S].
      + pose proof (quo_rep _ _ _ _ R (win_rep _ _ _ _ WN) ltac:(lra) S) as RQ. set (y := fquo D tN) in *.
        assert (HM : bpow radix2 996 <= y * y). { change 996%Z with (498 + 498)%Z. rewrite bpow_plus. replace (y * y) with (Rabs y * Rabs y) by (rewrite <- Rabs_mult; apply Rabs_pos_eq; nra). pose proof (bpow_gt_0 radix2 498). apply Rmult_le_compat; lra. }
        assert (HM' : bpow radix2 996 <= fmul y y) by (apply rnd_ge; [apply bpow_double; lia|exact HM]). assert (B9 : bpow radix2 990 <= bpow radix2 996) by (apply bpow_le; lia). pose proof (bpow_gt_0 radix2 990).
        destruct (Rlt_dec (Rabs (fmul y y)) big) as [S2|S2]; [left; exists (fmul y y); split; [now apply mul_rep|lra]|]. apply Rnot_lt_le in S2. destruct (mul_over _ _ _ _ RQ RQ S2) as (s & E & H2). right. rewrite E. destruct s; [|reflexivity]. assert (0 < big) by apply bpow_gt_0. lra.
      + apply Rnot_lt_le in S. destruct (quo_over _ _ _ _ R (win_rep _ _ _ _ WN) ltac:(lra) S) as (s & ->). right. apply Inf.
    - right. destruct (bsub x bl) as [s|s| |s m e' H]; try discriminate. rewrite (inf_quo _ _ _ _ _ WN). apply Inf.
  Qed.
  Lemma pdf_far x : bnanb x = false -> ~ within x -> bzero (bpdf' x) = true.
  Proof using All.
    intros Nx NW. pose proof (pa_gamma_G _ _ A) as WN. pose proof (pa_gamma_L _ _ A) as WC.
    assert (RC : rep (bcauchy_pdf bl bsC x) 0).
    { unfold bcauchy_pdf. rewrite (lt_zero _ _ _ _ WC). fold (yC x). apply (zero_quo _ _ _ _ _ WC).
      assert (Ny : bnanb (yC x) = false) by (apply (quo_not_nan _ _ _ _ _ (sub_not_nan _ _ Nx ltac:(apply (win_rep _ _ _ _ (pa_energy _ _ A)))) WC)).
      destruct (one_plus_total _ (square_total _ Ny)) as [(v & [Fv _] & _)|E]; [contradiction|]. rewrite E. apply quo_inf. reflexivity. }
    assert (RN : rep (bnorm_pdf (bv_b L) bl bsN x) 0).
    { unfold bnorm_pdf. rewrite (lt_zero _ _ _ _ WN). apply (zero_quo _ _ _ _ _ WN). apply exp_vast. now apply far_vast. }
    assert (B0 : forall a, rep a 0 -> bnd a 0 (0 - -83)) by (intros a R; split; [exact R|rewrite Rabs_R0; apply bpow_ge_0]).
    pose proof (bnd_rep _ _ _ (mix_agree _ _ _ _ _ _ (pa_eta _ _ A) (B0 _ RN) (B0 _ RC))) as M.
    replace (fmix (pv_eta p') 0 0) with 0 in M by (unfold fmix, fadd, fmul; rewrite !Rmult_0_r, rnd_0, Rplus_0_r, rnd_0; reflexivity).
    apply (rep_zero _ _ M). reflexivity.
  Qed.
  Lemma pdf_nan : bpdf' B754_nan = B754_nan.
  Proof using. unfold bpv_pdf, bmix. rewrite cauchy_nan, mul_nan, add_nan. reflexivity. Qed.
  Lemma cdf_nan : bcdf' B754_nan = B754_nan.
  Proof using. unfold bpv_cdf, bmix, bcdf. rewrite !nan_sub, !nan_quo. destruct (Bltb (of_Z 0) bsC); rewrite bnan_eq, mul_nan, add_nan; reflexivity. Qed.
End Line.
