(** Rounding in the PDF of the pseudo-Voigt distribution: errors near the resonance and far from it. *)
From Coq Require Import Reals List ZArith Lra Lia Psatz.
From Flocq Require Import Core.
From Verif Require Import Py Spec M_Num M_Thermal M_Dist M_Resonance M_PseudoVoigt M_Float S_Float M_Float2 M_Float4 S_Float4 M_Float6 S_Float6 M_Float8 S_Float8
  S_Resonance S_PseudoVoigt L_PseudoVoigt L_PseudoVoigt2 L_Float L_Float3 L_Float7 L_Float9 L_Float11 L_Float27 L_Float28.
Import ListNotations.
Open Scope R_scope.

Lemma eta_pow n : (n <= 1000)%nat -> 64 * eta <= / 2 ^ n * u.
Proof.
  intros H. unfold eta, u. rewrite <- Rinv_mult, <- pow_add. change (-1074)%Z with (- Z.of_nat 1074)%Z. rewrite bpow_neg.
  apply Rle_trans with (/ 2 ^ 1060); [|apply ipow2_le; lia]. change 1074%nat with (1060 + 14)%nat. rewrite pow_add, Rinv_mult.
  pose proof (ipow2_pos 1060). replace (/ 2 ^ 14) with (/ 16384) by (f_equal; ring). lra.
Qed.
Lemma norm_pdf_pos l s x : 0 < s -> 0 < norm_pdf l s x.
Proof.
  intros H. unfold norm_pdf, gauss0. pose proof PI_RGT_0. apply Rdiv_lt_0_compat; [|exact H]. apply Rdiv_lt_0_compat; [apply exp_pos|]. apply sqrt_lt_R0. lra.
Qed.

(** ** Far from the resonance *)
Lemma fnorm_far c l s W x : (forall x, double x -> x <= 0 -> Rabs (c_exp c x - exp x) <= 2 * u * exp x + 2 * eta) ->
  double x -> double l -> near 45 s W -> 17 * W < Rabs (x - l) ->
  exists a, fnorm_pdf c l s x = Ok a /\ Rabs a <= (2 * exp (- (49 / 100 * ((x - l) / W) ^ 2)) + 8 * eta) / W + 2 * eta.
Proof.
  intros HE Dx Dl N B. assert (PW : 0 < W) by apply N. pose proof (near_pos _ _ _ N) as Ps.
  unfold fnorm_pdf. destruct (Rlt_dec 0 s) as [_|F]; [|contradiction]. eexists. split; [reflexivity|].
  pose proof (near_dev l s W x 45 ltac:(lia) Dx Dl N) as DV. cbv zeta in DV. set (y := fquo (fsub x l) s) in *. set (Y := ((x - l) / W) ^ 2) in *.
  assert (HY : 289 <= Y).
  { unfold Y. rewrite <- (Rabs_pos_eq (_ ^ 2)) by apply pow2_ge_0. rewrite <- RPow_abs. unfold Rdiv. rewrite Rabs_mult, Rabs_inv, (Rabs_pos_eq W) by lra.
    assert (H : 17 <= Rabs (x - l) * / W). { apply (Rmult_le_reg_r W); [exact PW|]. rewrite Rmult_assoc, Rinv_l by lra. lra. } nra. }
  destruct DV as [DV|[DV _]]; [|pose proof (ipow2_le 0 480 ltac:(lia)) as K; rewrite pow_O, Rinv_1 in K; lra].
  assert (NZ : near (S (95 + 0)) (fquo (fmul y y) 2) (Y / 2)).
  { apply near_fquo; [lia| |exact DV|apply near_exact; lra]. pose proof moderate_tiny as [M _]. pose proof (ipow2_le 0 900 ltac:(lia)) as K. rewrite pow_O, Rinv_1 in K. lra. }
  set (z := fquo (fmul y y) 2) in *. pose proof u_pos as U. pose proof u_30 as U3. pose proof eta_pos as T.
  assert (Hz : 49 / 100 * Y <= z).
  { destruct NZ as (_ & NZ & _). pose proof (bernoulli (S (95 + 0))) as BB. replace (INR (S (95 + 0))) with 96 in BB by (rewrite INR_IZR_INZ; reflexivity). nra. }
  assert (Eo : fquo (- fmul y y) 2 = - z) by (unfold z, fquo, Rdiv; rewrite <- rnd_opp; f_equal; ring). rewrite Eo.
  assert (Dz : double (- z)) by (rewrite <- Eo; apply rnd_double).
  pose proof (HE (- z) Dz ltac:(nra)) as HC. set (e := c_exp c (- z)) in *. 
  assert (EX : exp (- z) <= exp (- (49 / 100 * Y))) by (apply exp_le; lra). pose proof (exp_pos (- z)) as EP. set (X := exp (- (49 / 100 * Y))) in *.
  assert (C1 : Rabs e <= 101 / 100 * X + 2 * eta).
  { replace e with ((e - exp (- z)) + exp (- z)) by ring. eapply Rle_trans; [apply Rabs_triang|]. rewrite (Rabs_pos_eq (exp (- z))) by lra. nra. }
  assert (GS : good 2 2 (fsqrt (fmul 2 np_pi)) (sqrt (2 * PI))).
  { apply good_fsqrt; [lia|lia|]. eapply good_weaken; [| |apply (good_fmul 0 1 1 2); [lia|lia|apply good_two|apply good_pi]]; lia. }
  set (S0 := fsqrt (fmul 2 np_pi)) in *. pose proof PI_lower as P3.
  assert (SP : 2 <= S0).
  { destruct GS as [(_ & K & _) _]. assert (24 / 10 <= sqrt (2 * PI)). { replace (24 / 10) with (sqrt (24 / 10 * (24 / 10))) by (apply sqrt_square; lra). apply sqrt_le_1_alt. lra. }
    pose proof (bernoulli 2) as BB. replace (INR 2) with 2 in BB by (simpl; ring). nra. }
  assert (C2 : Rabs (fquo e S0) <= 52 / 100 * X + 22 / 10 * eta).
  { unfold fquo. eapply Rle_trans; [apply rnd_abs_le|]. unfold Rdiv at 1. rewrite Rabs_mult, Rabs_inv, (Rabs_pos_eq S0) by lra.
    assert (I : / S0 <= / 2) by (apply Rinv_le_contravar; lra). assert (0 < / S0) by (apply Rinv_0_lt_compat; lra). pose proof (Rabs_pos e) as RE.
    assert (Rabs e * / S0 <= (101 / 100 * X + 2 * eta) * / 2) by (apply Rmult_le_compat; lra). assert (0 < X) by apply exp_pos. nra. }
  set (g := fquo e S0) in *. unfold fquo at 1. eapply Rle_trans; [apply rnd_abs_le|]. unfold Rdiv at 1. rewrite Rabs_mult, Rabs_inv, (Rabs_pos_eq s) by lra.
  assert (Is : / s <= 101 / 100 * / W).
  { destruct (near_inv _ _ _ N) as (_ & _ & K). pose proof (bernoulli 45) as BB. replace (INR 45) with 45 in BB by (rewrite INR_IZR_INZ; reflexivity). assert (0 < / s) by now apply Rinv_0_lt_compat. nra. }
  assert (0 < / s) by now apply Rinv_0_lt_compat. assert (0 < / W) by now apply Rinv_0_lt_compat. pose proof (Rabs_pos g). assert (0 < X) by apply exp_pos.
  assert (K : Rabs g * / s <= (52 / 100 * X + 22 / 10 * eta) * (101 / 100 * / W)) by (apply Rmult_le_compat; lra).
  assert (0 <= X * / W) by nra. assert (0 <= eta * / W) by nra. replace ((2 * X + 8 * eta) / W) with (2 * (X * / W) + 8 * (eta * / W)) by (unfold Rdiv; ring). nra.
Qed.
Lemma exp_decay Y : 289 <= Y -> (1 + 4 * Y) * exp (- (49 / 100 * Y)) <= 500 * / 2 ^ 198.
Proof.
  intros H. assert (A : 1 + 4 * Y <= 500 * exp (Y / 100)) by (pose proof (exp_ineq1_le (Y / 100)); lra).
  assert (B : exp (- (48 / 100 * Y)) <= / 2 ^ 198).
  { rewrite <- (exp_ln (/ 2 ^ 198)) by apply ipow2_pos. apply exp_le. rewrite ln_Rinv, ln_pow by (lra || apply pow2_pos). pose proof ln2_lt. replace (INR 198) with 198 by (rewrite INR_IZR_INZ; reflexivity). lra. }
  replace (- (49 / 100 * Y)) with (- (Y / 100) + - (48 / 100 * Y)) by field. rewrite exp_plus, exp_Ropp. pose proof (exp_pos (Y / 100)) as P. pose proof (exp_pos (- (48 / 100 * Y))) as P2.
  apply Rle_trans with (500 * exp (Y / 100) * (/ exp (Y / 100) * exp (- (48 / 100 * Y)))).
  - apply Rmult_le_compat_r; [|exact A]. apply Rmult_le_pos; [left; now apply Rinv_0_lt_compat|lra].
  - replace (500 * exp (Y / 100) * (/ exp (Y / 100) * exp (- (48 / 100 * Y)))) with (500 * exp (- (48 / 100 * Y))) by (field; lra). lra.
Qed.

Section Object.
  Variables (L : pvlib) (p' p : pv).
  Hypothesis HL : pvlib_ok L.
  Hypothesis C : close p' p.
  Let E := pv_energy p.
  Let SG := pv_gamma_G p / sqrt 2.
  Let SL := 1 / 2 * pv_gamma_L p.
  Let eta0 := pv_eta p.
  Let sG := fquo (pv_gamma_G p') (fsqrt 2).
  Let sL := fmul (1 / 2) (pv_gamma_L p').

  Lemma good_sG : good 45 66 sG SG.
  Proof. apply (goodb_fquo 43 65 1 1); [lia|lia|exact (cl_gamma_G _ _ C)|exact sqrt2_good]. Qed.
  Lemma good_sL : good 40 65 sL SL.
  Proof. apply (goodb_fmul 0 1 39 64); [lia|lia|exact half_good|exact (cl_gamma_L _ _ C)]. Qed.
  Lemma eta_01 : 0 <= eta0 <= 1.
  Proof. destruct (cl_valid _ _ C) as (_ & H & _). exact H. Qed.

  Lemma near_pdf x : double x -> Rabs (x - E) <= 17 * SG -> exists v, fpv_pdf L p' x = Ok v /\
    Rabs (v - pvf p x) <= ((49 * ((x - E) / SG) ^ 2 + 64) * ((1 - eta0) * norm_pdf E SG x) + 560 * (eta0 * cauchy_pdf E SL x)) * u.
  Proof.
    intros Dx B. destruct good_sG as [NG RG]. destruct good_sL as [NL RL].
    pose proof (exponent_k 45 E sG SG x ltac:(lia) Dx (cl_double _ _ C) NG B) as ((Y0 & Y1) & _). set (Y := ((x - E) / SG) ^ 2) in *.
    destruct (ceil_nat (49 * Y + 1)) as (n & N1 & N2); [lra|].
    assert (Hn : (n <= 15 * 1000)%nat). { apply INR_le. rewrite mult_INR. replace (INR 15) with 15 by (rewrite INR_IZR_INZ; reflexivity). replace (INR 1000) with 1000 by (rewrite INR_IZR_INZ; reflexivity). lra. }
    destruct (fnorm_good_k 45 150 (v_c L) E sG SG x n ltac:(lia) (proj1 HL) Dx (cl_double _ _ C) NG) as (a & A1 & A2).
    { apply (rng_weaken 66); [lia|exact RG]. } { exact B. } { fold Y. replace (INR 45 + 4) with 49 by (rewrite INR_IZR_INZ; simpl; ring). lra. } { exact Hn. } { lia. } { fold Y. replace (INR 150) with 150 by (rewrite INR_IZR_INZ; reflexivity). lra. }
    assert (B70 : Rabs (x - E) <= 2 ^ 71).
    { eapply Rle_trans; [exact B|]. destruct RG as [_ RG]. replace (2 ^ 71) with (32 * 2 ^ 66) by (change 71%nat with (5 + 66)%nat; rewrite pow_add; simpl; ring). pose proof (pow2_pos 66). lra. }
    destruct (fcauchy_good_k 40 65 71 E sL SL x ltac:(lia) ltac:(lia) ltac:(lia) Dx (cl_double _ _ C) NL RL B70) as (b & B1 & B2).
    exists (fmix (pv_eta p') a b). split. { unfold fpv_pdf. rewrite (cl_energy _ _ C). fold E sG sL. rewrite A1. cbn [bind]. rewrite B1. reflexivity. }
    destruct (fmix_error (pv_eta p') eta0 a b (cl_eta_double _ _ C) eta_01 (cl_eta _ _ C)) as (d1 & d2 & h & D1 & D2 & D3 & ->).
    pose proof (norm_le_cauchy p x (cl_valid _ _ C)) as RT. fold E SG SL in RT. unfold pvf. fold E SG SL eta0.
    pose proof (near_boundb (n + 7 + 45) _ _ ltac:(lia) (proj1 A2)) as EA. pose proof (near_boundb (10 + 3 * 40) _ _ ltac:(lia) (proj1 B2)) as EB.
    pose proof (rng_pos _ _ (proj2 A2)) as PA. pose proof (rng_pos _ _ (proj2 B2)) as PB.
    assert (QA : / 2 ^ 500 <= norm_pdf E SG x) by (eapply Rle_trans; [|apply (proj2 A2)]; apply ipow2_le; lia).
    assert (QB : / 2 ^ 500 <= cauchy_pdf E SL x) by (eapply Rle_trans; [|apply (proj2 B2)]; apply ipow2_le; lia).
    set (A := norm_pdf E SG x) in *. set (Bb := cauchy_pdf E SL x) in *. 
    rewrite !plus_INR in EA. replace (INR 7) with 7 in EA by (simpl; ring). replace (INR 45) with 45 in EA by (rewrite INR_IZR_INZ; reflexivity).
    replace (INR (10 + 3 * 40) + 1) with 131 in EB by (rewrite INR_IZR_INZ; simpl; ring).
    pose proof u_pos as U. pose proof u_30 as U3. pose proof (eta_pow 500 ltac:(lia)) as ET. pose proof eta_pos as T.
    pose proof eta_01 as E01. set (t := eta0) in *. set (w := 1 - t) in *. assert (W0 : 0 <= w <= 1) by (unfold w; lra).
    assert (EA' : Rabs (a - A) <= (49 * Y + 55) * u * A). { eapply Rle_trans; [exact EA|]. apply Rmult_le_compat_r; [lra|]. apply Rmult_le_compat_r; lra. }
    assert (KA : (49 * Y + 55) * u <= / 1024) by nra.
    assert (A' : Rabs a <= (1 + / 1024) * A). { replace a with ((a - A) + A) by ring. eapply Rle_trans; [apply Rabs_triang|]. rewrite (Rabs_pos_eq A) by lra. nra. }
    assert (B' : Rabs b <= (1 + / 1024) * Bb). { replace b with ((b - Bb) + Bb) by ring. eapply Rle_trans; [apply Rabs_triang|]. rewrite (Rabs_pos_eq Bb) by lra. nra. }
    replace ((w + d1) * a + (t + d2) * b + h - (w * A + t * Bb)) with (w * (a - A) + d1 * a + (t * (b - Bb) + d2 * b + h)) by ring.
    assert (T1 : Rabs (w * (a - A)) <= w * ((49 * Y + 55) * u * A)) by (rewrite Rabs_mult, (Rabs_pos_eq w) by lra; apply Rmult_le_compat_l; lra).
    assert (T2 : Rabs (d1 * a) <= (117 * u * t + 4 * u * w) * ((1 + / 1024) * A)) by (now apply mul_abs).
    assert (T3 : Rabs (t * (b - Bb)) <= t * (131 * u * Bb)) by (rewrite Rabs_mult, (Rabs_pos_eq t) by lra; apply Rmult_le_compat_l; lra).
    assert (T4 : Rabs (d2 * b) <= 119 * u * t * ((1 + / 1024) * Bb)) by (now apply mul_abs).
    assert (T5 : Rabs h <= u * (w * A + t * Bb)). { eapply Rle_trans; [exact D3|]. apply Rle_trans with (u * / 2 ^ 500); [lra|]. apply Rmult_le_compat_l; [lra|]. unfold w. nra. }
    eapply Rle_trans; [apply Rabs_triang|]. eapply Rle_trans; [apply Rplus_le_compat; [apply Rabs_triang|eapply Rle_trans; [apply Rabs_triang|apply Rplus_le_compat_r, Rabs_triang]]|].
    set (P := u * (w * A)) in *. set (Q := u * (t * Bb)) in *. assert (P0 : 0 <= P) by (unfold P; apply Rmult_le_pos; [lra|apply Rmult_le_pos; lra]). assert (Q0 : 0 <= Q) by (unfold Q; apply Rmult_le_pos; [lra|apply Rmult_le_pos; lra]).
    assert (M : u * (t * A) <= 5 / 2 * Q). { unfold Q. replace (5 / 2 * (u * (t * Bb))) with (u * (t * (5 / 2 * Bb))) by ring. apply Rmult_le_compat_l; [lra|]. apply Rmult_le_compat_l; lra. }
    replace (w * ((49 * Y + 55) * u * A)) with ((49 * Y + 55) * P) in T1 by (unfold P; ring).
    replace ((117 * u * t + 4 * u * w) * ((1 + / 1024) * A)) with ((1 + / 1024) * (117 * (u * (t * A)) + 4 * P)) in T2 by (unfold P; ring).
    replace (t * (131 * u * Bb)) with (131 * Q) in T3 by (unfold Q; ring). replace (119 * u * t * ((1 + / 1024) * Bb)) with (119 * (1 + / 1024) * Q) in T4 by (unfold Q; ring).
    replace (u * (w * A + t * Bb)) with (P + Q) in T5 by (unfold P, Q; ring).
    replace (((49 * Y + 64) * (w * A) + 560 * (t * Bb)) * u) with ((49 * Y + 64) * P + 560 * Q) by (unfold P, Q; ring).
    assert (0 <= Y * P) by (apply Rmult_le_pos; lra). lra.
  Qed.

  Lemma far_pdf x : pv_Gamma_L p <> 0 -> double x -> 17 * SG < Rabs (x - E) <= 2 ^ 63 -> exists v, fpv_pdf L p' x = Ok v /\
    Rabs (v - pvf p x) <= 256 * u * pvf p x.
  Proof.
    intros NZ Dx [B B63]. destruct good_sG as [NG RG]. destruct good_sL as [NL RL]. destruct HL as (_ & HE & _). change unit_roundoff with u in HE. rewrite <- eta_half in HE.
    destruct (fnorm_far (v_c L) E sG SG x HE Dx (cl_double _ _ C) NG B) as (a & A1 & A2). set (Y := ((x - E) / SG) ^ 2) in *.
    destruct (fcauchy_good_k 40 65 63 E sL SL x ltac:(lia) ltac:(lia) ltac:(lia) Dx (cl_double _ _ C) NL RL B63) as (b & B1 & B2).
    exists (fmix (pv_eta p') a b). split. { unfold fpv_pdf. rewrite (cl_energy _ _ C). fold E sG sL. rewrite A1. cbn [bind]. rewrite B1. reflexivity. }
    destruct (fmix_error (pv_eta p') eta0 a b (cl_eta_double _ _ C) eta_01 (cl_eta _ _ C)) as (d1 & d2 & h & D1 & D2 & D3 & ->).
    destruct (scale_ratio p (cl_valid _ _ C)) as (PG & PL & _ & r & ER & Pr & _ & Br). cbv zeta in *. fold SG SL in PG, PL, ER.
    pose proof PI_lower as P3. pose proof PI_upper as P4. change 3.5 with (35 / 10) in P4. 
    assert (HY : 289 <= Y).
    { unfold Y. rewrite <- (Rabs_pos_eq (_ ^ 2)) by apply pow2_ge_0. rewrite <- RPow_abs. unfold Rdiv. rewrite Rabs_mult, Rabs_inv, (Rabs_pos_eq SG) by lra.
      assert (H : 17 <= Rabs (x - E) * / SG). { apply (Rmult_le_reg_r SG); [exact PG|]. rewrite Rmult_assoc, Rinv_l by lra. lra. } nra. }
    assert (YB : 1 + Y <= 2 ^ 259) by (apply (rng_lorentz 63 66 (x - E) SG RG B63)).
    (* the Cauchy distribution compared with the scale *)
    assert (KB : / SG <= 4 * (1 + 4 * Y) * cauchy_pdf E SL x).
    { unfold cauchy_pdf. replace (((x - E) / SL) ^ 2) with (r ^ 2 * Y) by (unfold Y; rewrite ER; field; lra). assert (R2 : 0 <= r ^ 2 <= 4) by nra.
      assert (RY : 0 <= r ^ 2 * Y <= 4 * Y) by (split; [apply Rmult_le_pos|apply Rmult_le_compat_r]; lra).
      apply (Rmult_le_reg_r (SG * (PI * SL * (1 + r ^ 2 * Y)))); [apply Rmult_lt_0_compat; [exact PG|apply Rmult_lt_0_compat; [nra|lra]]|].
      replace (/ SG * (SG * (PI * SL * (1 + r ^ 2 * Y)))) with (PI * SL * (1 + r ^ 2 * Y)) by (field; lra).
      replace (4 * (1 + 4 * Y) * / (PI * SL * (1 + r ^ 2 * Y)) * (SG * (PI * SL * (1 + r ^ 2 * Y)))) with (4 * SG * (1 + 4 * Y)) by (field; repeat split; lra).
      apply Rmult_le_compat; try lra; rewrite ?ER; nra. }
    pose proof (near_boundb (10 + 3 * 40) _ _ ltac:(lia) (proj1 B2)) as EB. pose proof (rng_pos _ _ (proj2 B2)) as PB.
    assert (QB : / 2 ^ 350 <= cauchy_pdf E SL x) by (eapply Rle_trans; [|apply (proj2 B2)]; apply ipow2_le; lia).
    pose proof (exp_decay Y HY) as ED. pose proof (norm_pdf_pos E SG x PG) as PA.
    assert (UA : norm_pdf E SG x <= exp (- (49 / 100 * Y)) / SG).
    { unfold norm_pdf. apply Rmult_le_compat_r; [left; now apply Rinv_0_lt_compat|]. unfold gauss0. fold Y.
      assert (1 <= sqrt (2 * PI)) by (rewrite <- sqrt_1 at 1; apply sqrt_le_1_alt; lra).
      apply Rle_trans with (exp (- Y / 2) / 1); [apply Rmult_le_compat_l; [left; apply exp_pos|apply Rinv_le_contravar; lra]|]. replace (exp (- Y / 2) / 1) with (exp (- Y / 2)) by field. apply exp_le. lra. }
    unfold pvf. fold E SG SL eta0. set (A := norm_pdf E SG x) in *. set (Bb := cauchy_pdf E SL x) in *. set (X := exp (- (49 / 100 * Y))) in *.
    assert (PX : 0 < X) by apply exp_pos. pose proof (eta_pow 900 ltac:(lia)) as ET. pose proof eta_pos as T. pose proof u_pos as U. pose proof u_30 as U3.
    assert (IS : 0 < / SG) by now apply Rinv_0_lt_compat.
    assert (XS : X / SG <= 2000 * / 2 ^ 198 * Bb).
    { apply Rle_trans with (X * (4 * (1 + 4 * Y) * Bb)); [apply Rmult_le_compat_l; lra|]. replace (X * (4 * (1 + 4 * Y) * Bb)) with ((1 + 4 * Y) * X * (4 * Bb)) by ring.
      replace (2000 * / 2 ^ 198 * Bb) with (500 * / 2 ^ 198 * (4 * Bb)) by (unfold Rdiv; ring). apply Rmult_le_compat_r; lra. }
    assert (ES : eta / SG <= / 2 ^ 198 * Bb).
    { apply Rle_trans with (eta * (4 * (1 + 4 * Y) * Bb)); [apply Rmult_le_compat_l; lra|]. replace (eta * (4 * (1 + 4 * Y) * Bb)) with (eta * (4 * (1 + 4 * Y)) * Bb) by ring. apply Rmult_le_compat_r; [lra|].
      apply Rle_trans with (/ 2 ^ 900 * (2 ^ 259 * 16)).
      - apply Rmult_le_compat; [lra|lra| |lra]. assert (/ 2 ^ 900 * u <= / 2 ^ 900 * 1) by (apply Rmult_le_compat_l; [left; apply ipow2_pos|lra]). lra.
      - replace 16 with (2 ^ 4) by ring. rewrite <- pow_add. change 900%nat with (198 + (439 + (259 + 4)))%nat. rewrite !pow_add with (n := 198%nat), (pow_add 2 439), !Rinv_mult.
        pose proof (ipow2_pos 198). pose proof (pow2_pos (259 + 4)) as P1. replace (/ 2 ^ 198 * (/ 2 ^ 439 * / 2 ^ (259 + 4)) * 2 ^ (259 + 4)) with (/ 2 ^ 198 * / 2 ^ 439) by (field; repeat split; apply Rgt_not_eq, pow2_pos).
        pose proof (ipow2_le 0 439 ltac:(lia)) as K. rewrite pow_O, Rinv_1 in K. nra. }
    assert (E1 : 64 * eta <= / 2 ^ 198 * Bb).
    { apply Rle_trans with (/ 2 ^ 198 * / 2 ^ 350); [|apply Rmult_le_compat_l; [left; apply ipow2_pos|exact QB]]. pose proof (eta_pow (198 + 350) ltac:(lia)) as K. rewrite pow_add, Rinv_mult in K.
      pose proof (ipow2_pos 198). pose proof (ipow2_pos 350). assert (0 < / 2 ^ 198 * / 2 ^ 350) by nra. nra. }
    set (y := / 2 ^ 198 * Bb) in *. assert (Py : 0 < y) by (apply Rmult_lt_0_compat; [apply ipow2_pos|exact PB]).
    assert (A3 : Rabs a <= 4010 * y). { eapply Rle_trans; [exact A2|]. replace ((2 * X + 8 * eta) / SG) with (2 * (X / SG) + 8 * (eta / SG)) by (unfold Rdiv; ring). replace (2000 * / 2 ^ 198 * Bb) with (2000 * y) in XS by (unfold y; ring). lra. }
    assert (A4 : 0 < A <= 2000 * y). { split; [exact PA|]. replace (2000 * / 2 ^ 198 * Bb) with (2000 * y) in XS by (unfold y; ring). lra. }
    (* eta is not too small *)
    pose proof eta_01 as E01. pose proof (cl_eta_rng _ _ C NZ) as [E124 _]. fold eta0 in E124. set (t := eta0) in *.
    assert (YQ : 8192 * y <= u * (t * Bb)).
    { unfold y, u. replace (8192 * (/ 2 ^ 198 * Bb)) with (8192 * / 2 ^ 198 * Bb) by ring. replace (/ 2 ^ 53 * (t * Bb)) with (/ 2 ^ 53 * t * Bb) by ring. apply Rmult_le_compat_r; [lra|].
      apply Rle_trans with (/ 2 ^ 53 * / 2 ^ 124); [|apply Rmult_le_compat_l; [left; apply ipow2_pos|exact E124]]. rewrite <- Rinv_mult, <- pow_add. replace 8192 with (2 ^ 13) by ring.
      change 198%nat with (13 + 185)%nat. rewrite pow_add, Rinv_mult. replace (2 ^ 13 * (/ 2 ^ 13 * / 2 ^ 185)) with (/ 2 ^ 185) by (field; apply Rgt_not_eq, pow2_pos). apply ipow2_le. lia. }
    set (w := 1 - t) in *. assert (W0 : 0 <= w <= 1) by (unfold w; lra).
    replace (INR (10 + 3 * 40) + 1) with 131 in EB by (rewrite INR_IZR_INZ; simpl; ring).
    assert (B' : Rabs b <= (1 + / 1024) * Bb). { replace b with ((b - Bb) + Bb) by ring. eapply Rle_trans; [apply Rabs_triang|]. rewrite (Rabs_pos_eq Bb) by lra. nra. }
    replace ((w + d1) * a + (t + d2) * b + h - (w * A + t * Bb)) with ((w + d1) * a + - (w * A) + (t * (b - Bb) + d2 * b + h)) by ring.
    assert (T1 : Rabs ((w + d1) * a) <= 3 / 2 * (4010 * y)).
    { apply mul_abs; [|exact A3]. eapply Rle_trans; [apply Rabs_triang|]. rewrite (Rabs_pos_eq w) by lra. assert (117 * u * t + 4 * u * w <= 1 / 2) by nra. lra. }
    assert (T2 : Rabs (- (w * A)) <= 2000 * y). { rewrite Rabs_Ropp, Rabs_pos_eq by nra. nra. }
    assert (T3 : Rabs (t * (b - Bb)) <= t * (131 * u * Bb)) by (rewrite Rabs_mult, (Rabs_pos_eq t) by lra; apply Rmult_le_compat_l; lra).
    assert (T4 : Rabs (d2 * b) <= 119 * u * t * ((1 + / 1024) * Bb)) by (now apply mul_abs).
    eapply Rle_trans; [apply Rabs_triang|]. eapply Rle_trans; [apply Rplus_le_compat; [apply Rabs_triang|eapply Rle_trans; [apply Rabs_triang|apply Rplus_le_compat_r, Rabs_triang]]|].
    set (Q := u * (t * Bb)) in *. assert (Q0 : 0 <= Q) by (unfold Q; apply Rmult_le_pos; [lra|apply Rmult_le_pos; lra]).
    replace (t * (131 * u * Bb)) with (131 * Q) in T3 by (unfold Q; ring). replace (119 * u * t * ((1 + / 1024) * Bb)) with (119 * (1 + / 1024) * Q) in T4 by (unfold Q; ring).
    replace (256 * u * (w * A + t * Bb)) with (256 * (u * (w * A)) + 256 * Q) by (unfold Q; ring).
    assert (0 <= u * (w * A)) by (apply Rmult_le_pos; [lra|apply Rmult_le_pos; lra]). lra.
  Qed.
End Object.
