(** Rounding in the PDF of the pseudo-Voigt distribution: objects, and the neighbourhood of the resonance. *)
From Coq Require Import Reals List ZArith Lra Lia Psatz.
From Flocq Require Import Core.
From Coquelicot Require Import Coquelicot.
From Verif Require Import Py Spec M_Num M_Thermal M_Dist M_Resonance M_PseudoVoigt M_Float S_Float M_Float2 M_Float4 S_Float4 M_Float6 S_Float6 M_Float8 S_Float8
  S_Resonance S_PseudoVoigt L_RInt L_Dist L_PseudoVoigt L_PseudoVoigt2 L_Float L_Float3 L_Float7 L_Float9 L_Float11 L_Float27.
Import ListNotations.
Open Scope R_scope.

(** ** Objects *)
Record close (p' p : pv) : Prop := {
  cl_valid : pv_valid p;
  cl_energy : pv_energy p' = pv_energy p;
  cl_double : double (pv_energy p);
  cl_range : rng 61 (pv_energy p);
  cl_width : pv_Gamma_L p' = pv_Gamma_L p;
  cl_doppler : good0 5 60 (pv_doppler p') (pv_doppler p);
  cl_sigma : good0 7 61 (pv_sigma p') (pv_sigma p);
  cl_Gamma_G : good0 10 62 (pv_Gamma_G p') (pv_Gamma_G p);
  cl_Gamma : good 38 63 (pv_Gamma p') (pv_Gamma p);
  cl_gamma_G : good 43 65 (pv_gamma_G p') (pv_gamma_G p);
  cl_gamma_L : good 39 64 (pv_gamma_L p') (pv_gamma_L p);
  cl_gamma : good0 1 61 (pv_gamma p') (pv_gamma p);
  cl_eta_double : double (pv_eta p');
  cl_eta : Rabs (pv_eta p' - pv_eta p) <= 116 * u * pv_eta p;
  cl_zero : pv_Gamma_L p = 0 -> pv_eta p' = 0 /\ pv_eta p = 0;
  cl_eta_rng : pv_Gamma_L p <> 0 -> rng 124 (pv_eta p)
}.
Lemma sqrt2_good : good 1 1 (fsqrt 2) (sqrt 2).
Proof. apply (good_fsqrt 0 1); [lia|lia|]. apply good_exact. split; simpl; lra. Qed.
Lemma half_good : good 0 1 (1 / 2) (1 / 2).
Proof. apply good_exact. split; simpl; lra. Qed.
Lemma fpv_close L k E w amu T : pvlib_ok L -> pv_floats k E w amu T -> pv_params k E w amu T -> exists p p',
  PseudoVoigtDistribution k E w amu T = Ok p /\ fPseudoVoigtDistribution L k E w amu T = Ok p' /\ close p' p /\ pv_Gamma_L p = w /\ pv_energy p = E.
Proof.
  intros HL HF HP. destruct (pv_build k E w amu T HP) as (p & B & V & Ee & Ew & Eg & Ed & Pd & Es & EG & E5 & Eeta & G1 & G2).
  exists p. destruct (doppler_good0 k E w amu T HF) as (d & d' & D1 & D2 & D3 & _). rewrite D1 in Ed. injection Ed as Ed. rewrite Ed in D3. clear D1 Ed d.
  destruct HF as (DE & RE & Dw & _ & _ & _ & _ & Hw & _). pose proof V as (PG & _ & EgG & EgL).
  pose proof (log_good L HL) as LG. 
  assert (GG : good0 10 62 (fmul (fmul 2 (fsqrt (v_log L 2))) d') (pv_Gamma_G p)) by (rewrite EG; apply (good0_fmul 4 2 5 60); [lia|lia|left; exact LG|exact D3]).
  destruct (fGamma_good L HL _ _ w (pv_Gamma p) GG Dw Hw PG E5) as (G' & F1 & DG & HG).
  destruct (feta_good G' (pv_Gamma p) w HG Dw Hw G2) as (e' & F2 & De & He & Z & Rr). rewrite <- Eeta in He, Rr.
  eexists. split; [exact B|]. split; [unfold fPseudoVoigtDistribution; rewrite D2; cbn [bind]; rewrite F1; cbn [bind]; rewrite F2; reflexivity|].
  split; [|auto]. assert (W : good0 0 60 w w) by (destruct Hw as [->|H]; [right; auto|left; now apply good_exact]).
  constructor; cbn; auto; rewrite ?Ee, ?Ew; auto.
  - rewrite Es. apply (good0_fquo 5 60 1 1); [lia|lia|exact D3|exact sqrt2_good].
  - rewrite EgG. apply (goodb_fquo 38 63 4 2); [lia|lia|exact HG|exact LG].
  - rewrite EgL. replace (pv_Gamma p / 2) with (1 / 2 * pv_Gamma p) by field. apply (goodb_fmul 0 1 38 63); [lia|lia|exact half_good|exact HG].
  - rewrite Eg. replace (w / 2) with (1 / 2 * w) by field. apply (good0_fmul 0 1 0 60); [lia|lia|left; exact half_good|exact W].
  - intros H. split; [now apply Z|]. rewrite Eeta, H. unfold eta_of, Rdiv. ring.
Qed.

(** ** The two distributions *)
Lemma exp_quadratic y : 0 <= y -> 1 + y + y ^ 2 / 2 <= exp y.
Proof.
  intros Hy. destruct (Req_dec y 0) as [->|Ny]; [rewrite exp_0; lra|].
  destruct (MVT_gen (fun t => exp t - t - t ^ 2 / 2) 0 y (fun t => exp t - 1 - t)) as (c & Hc & E).
  - intros t _. auto_derive; [exact Logic.I|eqR; field].
  - intros t _. apply derivable_continuous_pt. reg.
  - rewrite exp_0 in E. pose proof (exp_ineq1_le c). rewrite Rmin_left, Rmax_right in Hc by lra.
    assert (0 <= (exp c - 1 - c) * (y - 0)) by (apply Rmult_le_pos; lra). lra.
Qed.
(** Scale of the normal distribution in units of the scale of the Cauchy distribution. *)
Lemma scale_ratio p : pv_valid p -> let SG := pv_gamma_G p / sqrt 2 in let SL := 1 / 2 * pv_gamma_L p in
  0 < SG /\ 0 < SL /\ SL = pv_Gamma p / 4 /\ exists r, SG = r * SL /\ 0 < r /\ r ^ 2 = 2 / ln 2 /\ 169 / 100 <= r <= 2.
Proof.
  intros V SG SL. destruct (pv_scales p V) as [H1 H2]. fold SG SL in H1, H2. destruct V as (PG & _ & EG & EL).
  split; [exact H1|]. split; [exact H2|]. assert (ES : SL = pv_Gamma p / 4) by (unfold SL; rewrite EL; field). split; [exact ES|].
  pose proof ln2_pos as L0. pose proof ln2_lt as L1. pose proof ln_lt_2 as L2. pose proof sqrt_ln2_pos as S0. assert (S2 : 0 < sqrt 2) by (apply sqrt_lt_R0; lra).
  exists (2 / (sqrt (ln 2) * sqrt 2)). assert (P : 0 < 2 / (sqrt (ln 2) * sqrt 2)) by (apply Rdiv_lt_0_compat; [lra|nra]).
  split; [unfold SG; rewrite ES, EG; field; lra|]. split; [exact P|].
  assert (Q : (2 / (sqrt (ln 2) * sqrt 2)) ^ 2 = 2 / ln 2).
  { replace ((2 / (sqrt (ln 2) * sqrt 2)) ^ 2) with (4 / (sqrt (ln 2) * sqrt (ln 2) * (sqrt 2 * sqrt 2))) by (field; lra). rewrite !sqrt_sqrt by lra. field. lra. }
  split; [exact Q|]. set (r := 2 / (sqrt (ln 2) * sqrt 2)) in *.
  assert (Q1 : 2 / ln 2 <= 4). { apply (Rmult_le_reg_r (ln 2)); [lra|]. unfold Rdiv. rewrite Rmult_assoc, Rinv_l by lra. lra. }
  assert (Q2 : 20 / 7 <= 2 / ln 2). { apply (Rmult_le_reg_r (ln 2)); [lra|]. unfold Rdiv. rewrite (Rmult_assoc 2), Rinv_l by lra. lra. }
  rewrite <- Q in Q1, Q2. split; nra.
Qed.
Lemma norm_le_cauchy p x : pv_valid p ->
  norm_pdf (pv_energy p) (pv_gamma_G p / sqrt 2) x <= 5 / 2 * cauchy_pdf (pv_energy p) (1 / 2 * pv_gamma_L p) x.
Proof.
  intros V. destruct (scale_ratio p V) as (H1 & H2 & _ & r & ER & Pr & _ & Br). cbv zeta in *.
  set (SG := pv_gamma_G p / sqrt 2) in *. set (SL := 1 / 2 * pv_gamma_L p) in *. unfold norm_pdf, gauss0, cauchy_pdf.
  set (D := x - pv_energy p). set (Y := (D / SG) ^ 2). assert (Y0 : 0 <= Y) by apply pow2_ge_0.
  assert (EY : (D / SL) ^ 2 = r ^ 2 * Y) by (unfold Y; rewrite ER; field; lra). rewrite EY.
  pose proof PI_lower as P3. pose proof PI_upper as P4. change 3.5 with (35 / 10) in P4.
  assert (SP : 0 < sqrt (2 * PI)) by (apply sqrt_lt_R0; lra). pose proof (sqrt_sqrt (2 * PI) ltac:(lra)) as SS.
  replace (- Y / 2) with (- (Y / 2)) by (unfold Rdiv; ring). rewrite exp_Ropp. pose proof (exp_quadratic (Y / 2) ltac:(lra)) as EQ.
  apply (Rmult_le_reg_r (exp (Y / 2) * sqrt (2 * PI) * SG * (PI * SL * (1 + r ^ 2 * Y)))).
  { pose proof (exp_pos (Y / 2)). assert (0 <= r ^ 2 * Y) by (apply Rmult_le_pos; [apply pow2_ge_0|exact Y0]). apply Rmult_lt_0_compat; [apply Rmult_lt_0_compat; [apply Rmult_lt_0_compat|]; lra|]. apply Rmult_lt_0_compat; [nra|lra]. }
  pose proof (exp_pos (Y / 2)) as EP. assert (R2Y : 0 <= r ^ 2 * Y) by (apply Rmult_le_pos; [apply pow2_ge_0|exact Y0]).
  replace (/ exp (Y / 2) / sqrt (2 * PI) / SG * (exp (Y / 2) * sqrt (2 * PI) * SG * (PI * SL * (1 + r ^ 2 * Y)))) with (PI * SL * (1 + r ^ 2 * Y)) by (field; repeat split; lra).
  replace (5 / 2 * / (PI * SL * (1 + r ^ 2 * Y)) * (exp (Y / 2) * sqrt (2 * PI) * SG * (PI * SL * (1 + r ^ 2 * Y)))) with (5 / 2 * exp (Y / 2) * sqrt (2 * PI) * SG) by (field; repeat split; lra).
  rewrite ER. set (q := sqrt (2 * PI)) in *.
  assert (K : PI * (1 + r ^ 2 * Y) <= 5 / 2 * (1 + Y / 2 + (Y / 2) ^ 2 / 2) * q * r).
  { assert (Q2 : q <= 265 / 100) by nra. replace PI with (q * q / 2) by lra.
    replace (q * q / 2 * (1 + r ^ 2 * Y)) with (q * r * (q / 2 * (/ r + r * Y))) by (field; lra).
    replace (5 / 2 * (1 + Y / 2 + (Y / 2) ^ 2 / 2) * q * r) with (q * r * (5 / 2 * (1 + Y / 2 + Y ^ 2 / 8))) by field.
    apply Rmult_le_compat_l; [nra|].
    assert (I : / r <= 100 / 169). { replace (100 / 169) with (/ (169 / 100)) by field. apply Rinv_le_contravar; lra. } assert (0 < / r) by now apply Rinv_0_lt_compat.
    apply Rle_trans with (265 / 200 * (100 / 169 + 2 * Y)); [assert (0 <= r * Y <= 2 * Y) by (split; nra); apply Rmult_le_compat; lra|]. assert (0 <= (Y - 56 / 25) ^ 2) by apply pow2_ge_0. lra. }
  apply Rle_trans with (5 / 2 * (1 + Y / 2 + (Y / 2) ^ 2 / 2) * q * r * SL).
  - replace (PI * SL * (1 + r ^ 2 * Y)) with (PI * (1 + r ^ 2 * Y) * SL) by ring. apply Rmult_le_compat_r; lra.
  - replace (5 / 2 * exp (Y / 2) * q * (r * SL)) with (5 / 2 * exp (Y / 2) * q * r * SL) by ring. repeat apply Rmult_le_compat_r; lra.
Qed.
Lemma fcauchy_good_k k m n l s W x : (k <= 45)%nat -> (m <= 100)%nat -> (n <= 100)%nat -> double x -> double l -> near k s W -> rng m W -> Rabs (x - l) <= 2 ^ n ->
  exists p, fcauchy_pdf l s x = Ok p /\ good (10 + 3 * k) (3 + 2 * n + 3 * m) p (cauchy_pdf l W x).
Proof.
  intros Hk Hm Hn Dx Dl N RW B. unfold fcauchy_pdf. destruct (Rlt_dec 0 s) as [_|F]; [|elim F; apply (near_pos _ _ _ N)]. eexists. split; [reflexivity|].
  pose proof (near_lorentz l s W x k Hk Dx Dl N) as NL. cbv zeta in NL. pose proof (rng_lorentz n m (x - l) W RW B) as RL. set (y := fquo (fsub x l) s) in *.
  assert (PW : 0 < W) by apply N. pose proof PI_RGT_0. pose proof (rng_pos _ _ RL).
  replace (cauchy_pdf l W x) with (1 / PI / (1 + ((x - l) / W) ^ 2) / W) by (unfold cauchy_pdf; set (z := 1 + _ ^ 2) in *; field; repeat split; lra).
  assert (GP : good 2 2 (fquo 1 np_pi) (1 / PI)) by (apply (goodb_fquo 0 0 1 2); [lia|lia|apply good_exact, rng_one|exact good_pi]).
  eapply good_weaken; [| |apply (goodb_fquo (9 + 2 * k) (3 + 2 * n + 2 * m) k m); [lia|lia| |split; assumption]]; [lia|lia|].
  eapply good_weaken; [| |apply (goodb_fquo 2 2 (6 + (k + k)) (S (n + m + (n + m)))); [lia|lia|exact GP|split; assumption]]; lia.
Qed.

(** ** Linear combinations *)
Lemma fmix_error eta' eta a' b' : double eta' -> 0 <= eta <= 1 -> Rabs (eta' - eta) <= 116 * u * eta -> exists d1 d2 h,
  Rabs d1 <= 117 * u * eta + 4 * u * (1 - eta) /\ Rabs d2 <= 119 * u * eta /\ Rabs h <= 3 * L_Float.eta /\
  fmix eta' a' b' = ((1 - eta) + d1) * a' + (eta + d2) * b' + h.
Proof.
  intros De He Hd. unfold fmix. destruct (fsub_error 1 eta' double_1 De) as (e1 & H1 & E1). set (c := fsub 1 eta') in *.
  destruct (rnd_error (c * a')) as (e2 & h2 & H2 & K2 & E2). destruct (rnd_error (eta' * b')) as (e3 & h3 & H3 & K3 & E3).
  destruct (fadd_error (fmul c a') (fmul eta' b') (rnd_double _) (rnd_double _)) as (e4 & H4 & E4). rewrite E4. unfold fmul. rewrite E2, E3, E1.
  pose proof u_pos as U. pose proof u_30 as U3. pose proof eta_pos as T. set (t := L_Float.eta) in *. 
  apply Rabs_le_inv in H1, H2, H3, H4, K2, K3, Hd.
  exists ((1 - eta') * (1 + e1) * (1 + e2) * (1 + e4) - (1 - eta)), (eta' * (1 + e3) * (1 + e4) - eta), ((h2 + h3) * (1 + e4)).
  assert (P : forall a b, - u <= a <= u -> - u <= b <= u -> Rabs ((1 + a) * (1 + b) - 1) <= 2 * u + u * u).
  { intros a b A B. replace ((1 + a) * (1 + b) - 1) with (a + b + a * b) by ring. apply Rabs_le. split; nra. }
  pose proof (P _ _ H2 H4) as P24. pose proof (P _ _ H3 H4) as P34. apply Rabs_le_inv in P24, P34.
  set (m := (1 + e2) * (1 + e4)) in *. set (n := (1 + e3) * (1 + e4)) in *.
  assert (UU : 0 <= u * u <= / 1000000 * u) by nra.
  assert (M3 : - (3001 / 1000 * u) <= (1 + e1) * m - 1 <= 3001 / 1000 * u).
  { replace ((1 + e1) * m - 1) with (e1 + (m - 1) + e1 * (m - 1)) by ring. assert (- (u * (3 * u)) <= e1 * (m - 1) <= u * (3 * u)) by nra. lra. }
  set (k := (1 + e1) * m) in *.
  split; [|split; [|split]].
  - replace ((1 - eta') * (1 + e1) * (1 + e2) * (1 + e4) - (1 - eta)) with (- (eta' - eta) + (1 - eta') * (k - 1)) by (unfold k, m; ring).
    set (d := eta' - eta) in *. replace (1 - eta') with ((1 - eta) - d) by (unfold d; ring).
    assert (UE : 0 <= u * eta) by nra. assert (UUE : 0 <= u * u * eta <= / 1000000 * (u * eta)) by nra.
    assert (- (116 * u * eta * (4 * u)) <= d * (k - 1) <= 116 * u * eta * (4 * u)) by (split; nra).
    assert (- ((1 - eta) * (3001 / 1000 * u)) <= (1 - eta) * (k - 1) <= (1 - eta) * (3001 / 1000 * u)) by (split; nra).
    assert (0 <= (1 - eta) * u) by nra. apply Rabs_le. split; nra.
  - replace (eta' * (1 + e3) * (1 + e4) - eta) with ((eta' - eta) + eta * (n - 1) + (eta' - eta) * (n - 1)) by (unfold n; ring).
    set (d := eta' - eta) in *. assert (UE : 0 <= u * eta) by nra. assert (UUE : 0 <= u * u * eta <= / 1000000 * (u * eta)) by nra.
    assert (- (116 * u * eta * (3 * u)) <= d * (n - 1) <= 116 * u * eta * (3 * u)) by (split; nra).
    assert (- (eta * (2 * u + u * u)) <= eta * (n - 1) <= eta * (2 * u + u * u)) by (split; nra).
    apply Rabs_le. split; nra.
  - apply Rabs_le. split; nra.
  - ring.
Qed.
