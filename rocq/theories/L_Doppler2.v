(** Doppler broadening of the Gauss and Voigt cross sections. *)
From Coq Require Import Reals List ZArith Lra Lia.
From Coquelicot Require Import Coquelicot.
From Verif Require Import Py Spec M_Num M_Constituents M_Thermal M_Dist M_Resonance M_PseudoVoigt
  S_Resonance S_PseudoVoigt S_Voigt S_Sums L_RInt L_Dist L_Resonance L_Resonance2 L_Resonance3 L_Resonance5 L_Resonance6 L_PseudoVoigt L_PseudoVoigt4 L_PseudoVoigt6 L_Axis L_Voigt
  L_Voigt2 L_Sums L_Coverage L_Doppler.
Import ListNotations.
Open Scope R_scope.

Lemma sqrt_ratio x y : 0 < x -> 0 < y -> sqrt y = sqrt x * sqrt (y / x).
Proof. intros Hx Hy. rewrite <- sqrt_mult; [f_equal; field; lra|lra|left; now apply Rdiv_lt_0_compat]. Qed.
Lemma sqrt_ratio_gt x y : 0 < x < y -> 1 < sqrt (y / x).
Proof.
  intros H. rewrite <- sqrt_1. apply sqrt_lt_1_alt. split; [lra|]. apply Rmult_lt_reg_r with x; [lra|].
  replace (y / x * x) with y by (field; lra). lra.
Qed.
Lemma doppler_ratio k amu T1 T2 E d1 : constants_ok k -> 0 < amu -> 0 < T1 < T2 ->
  get_doppler_width k {| mb_amu := amu; mb_effective_temperature := T1 |} E = Ok d1 ->
  get_doppler_width k {| mb_amu := amu; mb_effective_temperature := T2 |} E = Ok (d1 * sqrt (T2 / T1)).
Proof.
  intros K Ha HT H. rewrite doppler_value in * by (assumption || lra). injection H as <-. f_equal.
  rewrite (Rmult_assoc E). f_equal. unfold constants_ok in K. rewrite <- sqrt_mult.
  - f_equal. field. split; [lra|]. split; lra.
  - left. apply Rdiv_lt_0_compat; [|apply Rmult_lt_0_compat; lra]. apply Rmult_lt_0_compat; [|lra]. apply Rmult_lt_0_compat; [lra|apply Rinv_0_lt_compat; lra].
  - left. apply Rdiv_lt_0_compat; lra.
Qed.
Lemma doppler_incr k amu T1 T2 E d1 d2 : constants_ok k -> 0 < amu -> 0 <= T1 < T2 -> 0 < E ->
  get_doppler_width k {| mb_amu := amu; mb_effective_temperature := T1 |} E = Ok d1 ->
  get_doppler_width k {| mb_amu := amu; mb_effective_temperature := T2 |} E = Ok d2 -> 0 <= d1 < d2.
Proof.
  intros K Ha HT HE H1 H2. rewrite doppler_value in * by (assumption || lra). injection H1 as <-. injection H2 as <-.
  unfold constants_ok in K. split; [apply Rmult_le_pos; [lra|apply sqrt_pos]|]. apply Rmult_lt_compat_l; [exact HE|].
  assert (0 < 2 * k_kB_eV k * / 10 ^ 6 / (amu * k_u_MeV k)) as P.
  { apply Rdiv_lt_0_compat; [|apply Rmult_lt_0_compat; lra]. apply Rmult_lt_0_compat; [lra|apply Rinv_0_lt_compat; lra]. }
  assert (Q : forall T, 2 * k_kB_eV k * / 10 ^ 6 * T / (amu * k_u_MeV k) = 2 * k_kB_eV k * / 10 ^ 6 / (amu * k_u_MeV k) * T) by (intros; unfold Rdiv; ring).
  rewrite !Q. apply sqrt_lt_1_alt. split; [apply Rmult_le_pos; lra|apply Rmult_lt_compat_l; lra].
Qed.

(** ** Gauss *)
Lemma gauss_broadening k i m amu T1 T2 fin r1 r2 f1 f2 : constants_ok k -> 0 < amu -> 0 < T1 < T2 ->
  Gauss k i m amu T1 fin = Ok r1 -> Gauss k i m amu T2 fin = Ok r2 -> 0 < r_energy r1 ->
  cross_section_is r1 f1 -> cross_section_is r2 f2 ->
  let E := r_energy r1 in let q := sqrt (T2 / T1) in
  1 < q /\ r_energy r2 = E /\ r_integrated r2 = r_integrated r1 /\
  (forall x, q * f2 (E + q * x) = f1 (E + x)) /\
  (forall c ws d, 0 < c < 1 -> coverage_interval r1 c = (ws, Ok (Finite (E - d), Finite (E + d))) ->
    exists ws', coverage_interval r2 c = (ws', Ok (Finite (E - q * d), Finite (E + q * d)))) /\
  (0 < r_integrated r1 -> f2 E < f1 E /\ exists x0, 0 < x0 /\ forall x, f2 (E + x) < f1 (E + x) <-> Rabs x < x0).
Proof.
  intros K Ha HT H1 H2 HE C1 C2 E q.
  pose proof (sqrt_ratio_gt T1 T2 HT) as Hq. fold q in Hq. split; [exact Hq|].
  destruct (gauss_inv _ _ _ _ _ _ _ H1) as (r0 & d1 & ER & D1 & E1). destruct (gauss_inv _ _ _ _ _ _ _ H2) as (r0' & d2 & ER' & D2 & E2).
  rewrite ER in ER'. injection ER' as <-.
  assert (EE : r_energy r0 = E) by (unfold E; rewrite E1; reflexivity).
  assert (EE2 : r_energy r2 = E) by (rewrite E2; cbn [with_dist r_energy]; exact EE). split; [exact EE2|].
  assert (EI : r_integrated r2 = r_integrated r1) by (rewrite E1, E2; reflexivity). split; [exact EI|].
  rewrite EE in D1, D2. pose proof (doppler_ratio _ _ _ _ _ _ K Ha HT D1) as D2'. fold q in D2'. rewrite D2 in D2'. injection D2' as ->.
  assert (Hd : 0 < d1) by exact (doppler_pos _ _ _ _ _ K Ha (proj1 HT) HE D1).
  destruct (gauss_density _ _ _ _ _ _ _ K Ha (proj1 HT) H1 HE) as (d1' & D1' & _ & HD1 & HQ1 & HM1). fold E in D1', HD1, HQ1, HM1.
  rewrite D1 in D1'. injection D1' as <-.
  destruct (gauss_density _ _ _ _ _ _ _ K Ha (Rlt_trans _ _ _ (proj1 HT) (proj2 HT)) H2 ltac:(rewrite EE2; exact HE)) as (d2' & D2' & _ & HD2 & HQ2 & HM2).
  rewrite EE2 in D2', HD2, HQ2, HM2. rewrite D2 in D2'. injection D2' as <-.
  pose proof (scale_pos d1 Hd) as Hs. set (s := d1 / sqrt 2) in *.
  replace (d1 * q / sqrt 2) with (q * s) in * by (unfold s, Rdiv; ring).
  assert (V1 : forall x, f1 x = r_integrated r1 * norm_pdf E s x) by (intros x; apply (cs_fun r1 f1 (fun x => r_integrated r1 * norm_pdf E s x) C1 (res_value r1 _ _ HD1))).
  assert (V2 : forall x, f2 x = r_integrated r1 * norm_pdf E (q * s) x) by (intros x; rewrite <- EI; apply (cs_fun r2 f2 (fun x => r_integrated r2 * norm_pdf E (q * s) x) C2 (res_value r2 _ _ HD2))).
  assert (N : forall x, q * norm_pdf E (q * s) (E + q * x) = norm_pdf E s (E + x)).
  { intros x. unfold norm_pdf. replace ((E + q * x - E) / (q * s)) with ((E + x - E) / s) by (field; lra). field. lra. }
  split; [intros x; rewrite V1, V2, <- N; ring|]. split.
  - intros c ws d Hc CI.
    destruct (line_shape_symm r1) as (f & F & Sh & Sy & D0). { right. exists k, i, m, amu, T1, fin. exact (conj K (conj Ha (conj (proj1 HT) (conj H1 HE)))). }
    assert (Sh1 : shape r1 (norm_pdf E s) (norm_cdf E s)) by (split; [exact HD1|]; split; [exact HQ1|]; split; [exact HM1|]; now apply norm_unimodal).
    destruct (line_interval r1 _ _ c Sh1 (norm_symm _ _) D0 Hc) as (ws1 & e1 & P1 & CI1 & F1 & G1).
    assert (Sh2 : shape r2 (norm_pdf E (q * s)) (norm_cdf E (q * s))).
    { split; [exact HD2|]. split; [exact HQ2|]. rewrite EE2. split; [exact HM2|]. apply norm_unimodal. apply Rmult_lt_0_compat; lra. }
    assert (D0' : exists x, d_cdf (r_dist r2) [] 0 = Ok x) by (rewrite E1 in D0; rewrite E2; exact D0).
    destruct (line_interval r2 _ _ c Sh2 ltac:(rewrite EE2; apply norm_symm) D0' Hc) as (ws2 & e2 & P2 & CI2 & F2 & G2).
    rewrite EE2 in CI2, F2, G2. fold E in CI1, F1, G1. rewrite CI in CI1. injection CI1 as _ Q1 _.
    assert (e1 = d) as -> by lra. exists ws2. rewrite CI2.
    assert (X : norm_cdf E (q * s) (E + q * d) = norm_cdf E s (E + d)).
    { unfold norm_cdf. do 2 f_equal. field. lra. }
    assert (E + e2 = E + q * d) as X2. { apply (dens_inj _ _ (proj1 HD2)). rewrite X, G1, G2. reflexivity. }
    assert (e2 = q * d) as -> by lra. reflexivity.
  - intros HI. rewrite V1, V2.
    set (x0 := s * sqrt (2 * ln q / (1 - / q ^ 2))).
    assert (Hiq : 0 < / q < 1) by (split; [apply Rinv_0_lt_compat; lra|rewrite <- Rinv_1; apply Rinv_lt_contravar; lra]).
    assert (Hln : 0 < ln q) by (rewrite <- ln_1; apply ln_increasing; lra).
    assert (Hq2 : 0 < 1 - / q ^ 2) by (rewrite <- pow_inv; nra).
    assert (Hr : 0 < 2 * ln q / (1 - / q ^ 2)) by (apply Rdiv_lt_0_compat; lra).
    assert (Hx0 : 0 < x0) by (apply Rmult_lt_0_compat; [exact Hs|now apply sqrt_lt_R0]).
    assert (Key : forall x, r_integrated r1 * norm_pdf E (q * s) (E + x) < r_integrated r1 * norm_pdf E s (E + x) <-> Rabs x < x0).
    { intros x. unfold norm_pdf, gauss0. set (u := x / s).
      replace ((E + x - E) / (q * s)) with (u * / q) by (unfold u; field; lra). replace ((E + x - E) / s) with u by (unfold u; field; lra).
      assert (Hp : 0 < sqrt (2 * PI)) by (apply sqrt_lt_R0; pose proof PI_RGT_0; lra).
      transitivity (exp (- (u * / q) ^ 2 / 2) < q * exp (- u ^ 2 / 2)).
      { assert (W : 0 < r_integrated r1 / (sqrt (2 * PI) * (q * s))) by (apply Rdiv_lt_0_compat; [exact HI|apply Rmult_lt_0_compat; nra]).
        replace (r_integrated r1 * (exp (- (u * / q) ^ 2 / 2) / sqrt (2 * PI) / (q * s))) with
          (r_integrated r1 / (sqrt (2 * PI) * (q * s)) * exp (- (u * / q) ^ 2 / 2)) by (field; lra).
        replace (r_integrated r1 * (exp (- u ^ 2 / 2) / sqrt (2 * PI) / s)) with
          (r_integrated r1 / (sqrt (2 * PI) * (q * s)) * (q * exp (- u ^ 2 / 2))) by (field; lra).
        split; intros L; [now apply Rmult_lt_reg_l in L|now apply Rmult_lt_compat_l]. }
      rewrite <- (exp_ln q) at 2 by lra. rewrite <- exp_plus.
      transitivity (- (u * / q) ^ 2 / 2 < ln q + - u ^ 2 / 2).
      { split; [apply exp_lt_inv|apply exp_increasing]. }
      replace (- (u * / q) ^ 2 / 2) with (- (u ^ 2 * / q ^ 2) / 2) by (rewrite Rpow_mult_distr, pow_inv; reflexivity).
      transitivity (u ^ 2 < 2 * ln q / (1 - / q ^ 2)).
      { split; intros L.
        - apply Rmult_lt_reg_r with (1 - / q ^ 2); [exact Hq2|]. replace (2 * ln q / (1 - / q ^ 2) * (1 - / q ^ 2)) with (2 * ln q) by (field; nra). lra.
        - apply (Rmult_lt_compat_r (1 - / q ^ 2)) in L; [|exact Hq2]. replace (2 * ln q / (1 - / q ^ 2) * (1 - / q ^ 2)) with (2 * ln q) in L by (field; nra). lra. }
      assert (Ex : Rabs x = s * Rabs u) by (unfold u; rewrite Rabs_div by lra; rewrite (Rabs_pos_eq s) by lra; field; lra).
      rewrite Ex. unfold x0. rewrite <- (pow2_abs u). split; intros L.
      - apply Rmult_lt_compat_l; [exact Hs|]. rewrite <- (sqrt_pow2 (Rabs u)) by apply Rabs_pos. apply sqrt_lt_1_alt. split; [apply pow2_ge_0|exact L].
      - apply Rmult_lt_reg_l in L; [|exact Hs]. pose proof (Rabs_pos u).
        rewrite <- (pow2_sqrt (2 * ln q / (1 - / q ^ 2))) by lra. nra. }
    split.
    + pose proof (proj2 (Key 0)) as K0. rewrite Rabs_R0, Rplus_0_r in K0. now apply K0.
    + exists x0. split; [exact Hx0|]. intros x. rewrite V1, V2. apply Key.
Qed.

(** ** Voigt *)
Lemma voigt_broadening modern k i m amu T1 T2 fin r1 r2 w f1 f2 : Voigt modern k i m amu T1 fin = Ok r1 ->
  Voigt modern k i m amu T2 fin = Ok r2 -> width m = Ok w -> constants_ok k -> 0 < amu -> 0 <= T1 < T2 -> 0 < w ->
  0 < r_energy r1 -> 0 < r_integrated r1 -> cross_section_is r1 f1 -> cross_section_is r2 f2 ->
  let E := r_energy r1 in r_energy r2 = E /\ r_integrated r2 = r_integrated r1 /\ f2 E < f1 E /\
  forall d, 0 < d -> exists I1 I2, is_RInt f1 (E - d) (E + d) I1 /\ is_RInt f2 (E - d) (E + d) I2 /\ 0 < I2 < I1.
Proof.
  intros H1 H2 W K Ha HT Hw HE HI C1 C2 E.
  destruct (voigt_same_resonance _ _ _ _ _ _ _ _ H1) as (r0 & ER & EE & EI).
  destruct (voigt_same_resonance _ _ _ _ _ _ _ _ H2) as (r0' & ER' & EE2 & EI2). rewrite ER in ER'. injection ER' as <-.
  assert (HE2 : r_energy r2 = E) by (unfold E; congruence). assert (HI2 : r_integrated r2 = r_integrated r1) by congruence.
  split; [exact HE2|]. split; [exact HI2|].
  assert (P1 : pv_params k (r_energy r1) w amu T1) by (split; [exact K|]; split; [exact Ha|]; split; [apply HT|]; split; [exact HE|]; split; [lra|left; exact Hw]).
  assert (P2 : pv_params k (r_energy r2) w amu T2) by (rewrite HE2; split; [exact K|]; split; [exact Ha|]; split; [lra|]; split; [exact HE|]; split; [lra|left; exact Hw]).
  destruct (voigt_call _ _ _ _ _ _ _ _ _ H1 W P1) as (d1 & D1 & _ & _ & _ & V1).
  destruct (voigt_call _ _ _ _ _ _ _ _ _ H2 W P2) as (d2 & D2 & _ & _ & _ & V2).
  rewrite HE2 in D2, V2. rewrite HI2 in V2. fold E in D1, V1.
  pose proof (doppler_incr _ _ _ _ _ _ _ K Ha HT HE D1 D2) as Hd.
  assert (S2 : 0 < / sqrt 2) by (apply Rinv_0_lt_compat, sqrt_lt_R0; lra).
  set (s1 := d1 / sqrt 2) in *. set (s2 := d2 / sqrt 2) in *.
  assert (Hs : 0 <= s1 < s2) by (unfold s1, s2, Rdiv; split; [apply Rmult_le_pos; lra|apply Rmult_lt_compat_r; lra]).
  assert (A1 : forall x, f1 x = r_integrated r1 * voigt_profile (x - E) s1 (w / 2)) by exact (cs_fun r1 _ _ C1 V1).
  assert (A2 : forall x, f2 x = r_integrated r1 * voigt_profile (x - E) s2 (w / 2)) by exact (cs_fun r2 _ _ C2 V2).
  split.
  - rewrite A1, A2. rewrite Rminus_eq_0. apply Rmult_lt_compat_l; [exact HI|]. apply profile_peak_decr; lra.
  - intros d Pd. destruct (profile_content_decr s1 s2 (w / 2) d ltac:(lra) Pd Hs) as (l1 & l2 & J1 & J2 & B).
    exists (r_integrated r1 * l1), (r_integrated r1 * l2).
    assert (T : forall s f l, (forall x, f x = r_integrated r1 * voigt_profile (x - E) s (w / 2)) -> 
      is_RInt (fun x => voigt_profile x s (w / 2)) (- d) d l -> is_RInt f (E - d) (E + d) (r_integrated r1 * l)).
    { intros s f l Q J. apply (is_RInt_ext (fun x => r_integrated r1 * voigt_profile (x - E) s (w / 2))); [intros; symmetry; apply Q|].
      apply (is_RInt_scal (V := R_NormedModule) (fun x => voigt_profile (x - E) s (w / 2))).
      apply (is_RInt_ext (fun x => scal 1 (voigt_profile (1 * x + - E) s (w / 2)))).
      - intros x _. unfold scal. cbn. unfold mult. cbn. rewrite Rmult_1_l. f_equal. ring.
      - apply (is_RInt_comp_lin (V := R_NormedModule) (fun x => voigt_profile x s (w / 2)) 1 (- E)).
        replace (1 * (E - d) + - E) with (- d) by ring. replace (1 * (E + d) + - E) with d by ring. exact J. }
    split; [now apply (T s1)|]. split; [now apply (T s2)|]. split; [apply Rmult_lt_0_compat; lra|apply Rmult_lt_compat_l; lra].
Qed.
