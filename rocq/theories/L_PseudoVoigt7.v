(** Convergence of the inversion for the central part of the pseudo-Voigt profile. *)
From Coq Require Import Reals List ZArith Lra Lia Sorted.
From Coquelicot Require Import Coquelicot.
From Verif Require Import Py Spec M_Num M_Grid M_Constituents M_Thermal M_Dist M_Resonance M_PseudoVoigt
  S_Resonance S_PseudoVoigt L_RInt L_Grid L_Darboux L_Dist L_Resonance L_Resonance2 L_Resonance3 L_Resonance4 L_Resonance5 L_Resonance6 L_Newton L_Newton2
  L_PseudoVoigt L_PseudoVoigt2 L_PseudoVoigt3 L_PseudoVoigt4 L_PseudoVoigt5 L_PseudoVoigt6.
Import ListNotations.
Open Scope R_scope.

Lemma ln2_half : 1 / 2 < ln 2.
Proof.
  apply exp_lt_inv. rewrite exp_ln by lra.
  assert (E : exp (1 / 2) * exp (1 / 2) = exp 1) by (rewrite <- exp_plus; f_equal; field).
  pose proof exp_le_3. pose proof (exp_pos (1 / 2)). nra.
Qed.
Lemma pv_peak_lower p : pv_valid p -> / (2 * pv_Gamma p) <= pvf p (pv_energy p).
Proof.
  intros (HG & He & EG & EL). unfold pvf. rewrite norm_peak, cauchy_peak, EG, EL.
  pose proof sqrt_ln2_pos as HS. pose proof PI_lower as HP. pose proof PI_upper as HP'.
  assert (E : pv_Gamma p / (2 * sqrt (ln 2)) / sqrt 2 * sqrt (2 * PI) = pv_Gamma p * sqrt PI / (2 * sqrt (ln 2))).
  { rewrite sqrt_mult by lra. pose proof sqrt2_pos. field. lra. }
  rewrite E. clear E.
  assert (SP : 0 < sqrt PI) by (apply sqrt_lt_R0; lra).
  assert (H1 : / (2 * pv_Gamma p) <= / (pv_Gamma p * sqrt PI / (2 * sqrt (ln 2)))).
  { apply Rinv_le_contravar.
    - apply Rdiv_lt_0_compat; nra.
    - assert (K : sqrt PI <= 4 * sqrt (ln 2)).
      { replace 4 with (sqrt (Rsqr 4)) by (apply sqrt_Rsqr; lra). rewrite <- sqrt_mult; [|unfold Rsqr; lra|pose proof ln2_pos; lra].
        apply sqrt_le_1_alt. unfold Rsqr. pose proof ln2_half. lra. }
      apply (Rmult_le_reg_r (2 * sqrt (ln 2))); [lra|].
      replace (pv_Gamma p * sqrt PI / (2 * sqrt (ln 2)) * (2 * sqrt (ln 2))) with (pv_Gamma p * sqrt PI) by (field; lra). nra. }
  assert (H2 : / (2 * pv_Gamma p) <= / (PI * (1 / 2 * (pv_Gamma p / 2)))) by (apply Rinv_le_contravar; nra).
  nra.
Qed.

Lemma exp_le_mono x y : x <= y -> exp x <= exp y.
Proof. intros [H| ->]; [left; now apply exp_increasing|lra]. Qed.
Lemma half_height p x : pv_valid p -> Rabs (x - pv_energy p) <= pv_Gamma p / 4 -> 1 / 2 * pvf p (pv_energy p) <= pvf p x.
Proof.
  intros V Hx. pose proof V as (HG & He & EG & EL). destruct (pv_scales p V) as [S1 S2].
  assert (Hx2 : (x - pv_energy p) ^ 2 <= (pv_Gamma p / 4) ^ 2).
  { rewrite <- (pow2_abs (x - pv_energy p)). apply pow_incr. split; [apply Rabs_pos|assumption]. }
  assert (Q2 : pv_Gamma p ^ 2 > 0) by (apply pow_lt; assumption).
  assert (C : 1 / 2 * cauchy_pdf (pv_energy p) (1 / 2 * pv_gamma_L p) (pv_energy p) <= cauchy_pdf (pv_energy p) (1 / 2 * pv_gamma_L p) x).
  { rewrite cauchy_peak. unfold cauchy_pdf. set (s := 1 / 2 * pv_gamma_L p) in *. pose proof PI_RGT_0.
    assert (Es : s = pv_Gamma p / 4) by (unfold s; rewrite EL; field).
    assert (L : ((x - pv_energy p) / s) ^ 2 <= 1).
    { unfold Rdiv. rewrite Rpow_mult_distr. apply (Rmult_le_reg_r (s ^ 2)); [apply pow_lt; lra|].
      replace ((x - pv_energy p) ^ 2 * (/ s) ^ 2 * s ^ 2) with ((x - pv_energy p) ^ 2) by (field; lra). rewrite Es. lra. }
    pose proof (pow2_ge_0 ((x - pv_energy p) / s)).
    replace (1 / 2 * / (PI * s)) with (/ (PI * s * 2)) by (field; lra).
    apply Rinv_le_contravar; [apply Rmult_lt_0_compat; [nra|lra]|]. apply Rmult_le_compat_l; [nra|lra]. }
  assert (N : 1 / 2 * norm_pdf (pv_energy p) (pv_gamma_G p / sqrt 2) (pv_energy p) <= norm_pdf (pv_energy p) (pv_gamma_G p / sqrt 2) x).
  { rewrite norm_peak. unfold norm_pdf, gauss0. set (s := pv_gamma_G p / sqrt 2) in *.
    pose proof PI_RGT_0. assert (SP : 0 < sqrt (2 * PI)) by (apply sqrt_lt_R0; lra).
    replace (1 / 2 * / (s * sqrt (2 * PI))) with (1 / 2 * / sqrt (2 * PI) / s) by (field; lra).
    apply Rmult_le_compat_r; [left; now apply Rinv_0_lt_compat|]. apply Rmult_le_compat_r; [left; now apply Rinv_0_lt_compat|].
    replace (1 / 2) with (exp (- ln 2)) by (rewrite exp_Ropp, exp_ln by lra; field). apply exp_le_mono.
    pose proof ln2_pos as L2.
    assert (Es : s ^ 2 = pv_Gamma p ^ 2 / (8 * ln 2)).
    { unfold s. rewrite EG. unfold Rdiv. rewrite !Rpow_mult_distr, !pow_inv, Rpow_mult_distr. 
      rewrite <- !Rsqr_pow2, !Rsqr_sqrt by lra. unfold Rsqr. field. lra. }
    assert (B : ((x - pv_energy p) / s) ^ 2 <= ln 2 / 2).
    { unfold Rdiv at 1. rewrite Rpow_mult_distr, pow_inv, Es.
      replace (/ (pv_Gamma p ^ 2 / (8 * ln 2))) with (8 * ln 2 / pv_Gamma p ^ 2) by (field; lra).
      apply (Rmult_le_reg_r (pv_Gamma p ^ 2)); [assumption|].
      replace ((x - pv_energy p) ^ 2 * (8 * ln 2 / pv_Gamma p ^ 2) * pv_Gamma p ^ 2) with (8 * ln 2 * (x - pv_energy p) ^ 2) by (field; lra).
      replace ((pv_Gamma p / 4) ^ 2) with (pv_Gamma p ^ 2 / 16) in Hx2 by field. nra. }
    lra. }
  unfold pvf in *. nra.
Qed.

(** Quantiles within a quarter of the width around the centre. *)
Definition central_quantile (p : pv) (q : R) : Prop := exists x, pv_cdf p x = Ok q /\ Rabs (x - pv_energy p) <= pv_Gamma p / 4.

Lemma central_ok p q : pv_valid p -> central_quantile p q -> central (pvf p) (pvF p) (pv_energy p) (1 / 2) q.
Proof.
  intros V (x & Hx & Hb). rewrite pv_cdf_ok in Hx by assumption. injection Hx as Hx. exists x. split; [exact Hx|now apply half_height].
Qed.
Lemma pow_half_49 : (1 - 1 / 2) ^ 49 < 2 / 10 ^ 15.
Proof. cbn. lra. Qed.
Lemma tolerance_met p : pv_valid p -> pv_Gamma p <= 10 ^ 6 -> 1 / 2 * (1 - 1 / 2) ^ 49 / (1 / 2 * pvf p (pv_energy p)) < tol.
Proof.
  intros V HG. pose proof (pv_peak_lower p V) as L. destruct V as (PG & _).
  assert (L' : / (2 * 10 ^ 6) <= pvf p (pv_energy p)).
  { eapply Rle_trans; [|exact L]. apply Rinv_le_contravar; lra. }
  set (y := pvf p (pv_energy p)) in *. assert (0 < / (2 * 10 ^ 6)) by (apply Rinv_0_lt_compat; lra).
  pose proof pow_half_49 as P. set (z := (1 - 1 / 2) ^ 49) in *.
  assert (0 < z) by (apply pow_lt; lra).
  replace (1 / 2 * z / (1 / 2 * y)) with (z * / y) by (field; lra).
  apply Rle_lt_trans with (2 / 10 ^ 15 * (2 * 10 ^ 6)); [|unfold tol; lra].
  apply Rmult_le_compat; [lra|left; apply Rinv_0_lt_compat; lra|lra|].
  rewrite <- (Rinv_inv (2 * 10 ^ 6)). apply Rinv_le_contravar; lra.
Qed.
Lemma central_converges modern p qs : pv_valid p -> pv_Gamma p <= 10 ^ 6 -> (2 <= List.length qs)%nat ->
  List.Forall (central_quantile p) qs -> exists es, pv_ppf modern p qs = ([], Ok (Some (map Finite es))).
Proof.
  intros V HG L C.
  destruct (newton_array_converges _ _ _ (1 / 2) (pv_density p V) (pv_unimodal p V) (pv_median p) ltac:(lra) qs) as (x & conv & E & T).
  - intros ->. cbn in L. lia.
  - eapply List.Forall_impl; [|exact C]. intros q. now apply central_ok.
  - now apply tolerance_met.
  - exists x. destruct qs as [|q [|q' qs]]; try (cbn in L; lia). unfold pv_ppf. rewrite (array_newton_pv p V), E, T. reflexivity.
Qed.
Lemma central_converges_scalar p q : pv_valid p -> pv_Gamma p <= 10 ^ 6 -> central_quantile p q ->
  exists e, pv_ppf_scalar p q = ([], Ok (Some [Finite e])).
Proof.
  intros V HG C.
  destruct (newton_scalar_converges _ _ _ (1 / 2) (pv_density p V) (pv_unimodal p V) (pv_median p) ltac:(lra) q) as (x & E).
  - now apply central_ok.
  - left. now apply tolerance_met.
  - exists x. unfold pv_ppf_scalar. rewrite (scalar_newton p V), E. reflexivity.
Qed.

Lemma central_range p : pv_valid p -> pvF p (pv_energy p - pv_Gamma p / 4) <= 1 / 2 - 1 / 16 /\ 1 / 2 + 1 / 16 <= pvF p (pv_energy p + pv_Gamma p / 4).
Proof.
  intros V. pose proof V as (HG & _). pose proof (pv_peak_lower p V) as L. pose proof (pv_median p) as M.
  pose proof (convex_right _ _ _ (pv_density p V) (pv_unimodal p V) (pv_energy p) (pv_energy p + pv_Gamma p / 4) ltac:(lra) ltac:(lra)) as CR.
  pose proof (convex_left _ _ _ (pv_density p V) (pv_unimodal p V) (pv_energy p - pv_Gamma p / 4) (pv_energy p) ltac:(lra) ltac:(lra)) as CL.
  pose proof (half_height p (pv_energy p + pv_Gamma p / 4) V) as H1. pose proof (half_height p (pv_energy p - pv_Gamma p / 4) V) as H2.
  replace (pv_energy p + pv_Gamma p / 4 - pv_energy p) with (pv_Gamma p / 4) in * by ring.
  replace (pv_energy p - pv_Gamma p / 4 - pv_energy p) with (- (pv_Gamma p / 4)) in * by ring.
  replace (pv_energy p - (pv_energy p - pv_Gamma p / 4)) with (pv_Gamma p / 4) in * by ring.
  rewrite Rabs_Ropp in H2. rewrite Rabs_pos_eq in H1, H2 by lra. specialize (H1 ltac:(lra)). specialize (H2 ltac:(lra)).
  assert (E : / (2 * pv_Gamma p) * pv_Gamma p = 1 / 2) by (field; lra).
  set (y := pvf p (pv_energy p)) in *. assert (Y : 1 / 2 <= y * pv_Gamma p) by nra.
  rewrite M in *. split; nra.
Qed.
Lemma central_of p q : pv_valid p -> 7 / 16 <= q <= 9 / 16 -> central_quantile p q.
Proof.
  intros V Hq. destruct (dens_onto _ _ (pv_density p V) q ltac:(lra)) as [x Hx]. exists x. split; [rewrite pv_cdf_ok by assumption; now rewrite Hx|].
  destruct (central_range p V) as [A B].
  assert (pv_energy p - pv_Gamma p / 4 <= x) by (apply (dens_le_inv _ _ (pv_density p V)); lra).
  assert (x <= pv_energy p + pv_Gamma p / 4) by (apply (dens_le_inv _ _ (pv_density p V)); lra).
  apply Rabs_le. lra.
Qed.
Lemma small_coverage modern k i m amu T fin r w p c : PseudoVoigt modern k i m amu T fin = Ok r -> width m = Ok w ->
  pv_params k (r_energy r) w amu T -> PseudoVoigtDistribution k (r_energy r) w amu T = Ok p -> pv_Gamma p <= 10 ^ 6 -> 0 <= c <= 1 / 8 ->
  (exists ws a b, coverage_interval r c = (ws, Ok (Finite a, Finite b)) /\ inverted ws) /\
  (forall n, (2 <= n)%Z -> exists es, res_probability_grid r (Coverage c) n = ([], Ok (Some (map Finite es)))).
Proof.
  intros H W P EP HG Hc. destruct (pv_res_density _ _ _ _ _ _ _ _ _ H W P) as (p' & EP' & V & HE & HP & HDi & HV & HC).
  rewrite EP in EP'. injection EP' as <-.
  assert (CO : forall q, 1 / 2 * (1 - c) <= q <= 1 / 2 * (1 + c) -> central_quantile p q) by (intros q Hq; apply central_of; [exact V|lra]).
  split.
  - destruct (central_converges modern p [1 / 2 * (1 - c); 1 / 2 * (1 + c)] V HG) as (es & E); [cbn; lia|constructor; [apply CO; lra|constructor; [apply CO; lra|constructor]]|].
    destruct (ppf_inverted p V _ _ _ _ E ltac:(intros [])) as (rs & E' & _ & N & _).
    inversion N as [|? a ? rs1 Na N1]; subst. inversion N1 as [|? b ? rs2 Nb N2]; subst. inversion N2; subst.
    rewrite E' in E. unfold coverage_interval. rewrite HP, HDi. cbn [pv_distribution d_ppf]. rewrite E. cbn [map Rbar_is_inf].
    destruct (Rbar_negative a).
    + rewrite HDi in HC. cbn [pv_distribution d_cdf] in *. rewrite HC. do 3 eexists. split; [reflexivity|]. intros [K|[]]. discriminate.
    + do 3 eexists. split; [reflexivity|]. intros [].
  - intros n Hn. unfold res_probability_grid. cbn [bind]. rewrite linspace_ok by exact Hn. rewrite HP, HDi. cbn [pv_distribution d_ppf].
    destruct (central_converges modern p (map (fun i0 => 1 / 2 * (1 - c) + INR i0 * ((1 / 2 * (1 + c) - 1 / 2 * (1 - c)) / IZR (n - 1))) (seq 0 (Z.to_nat n))) V HG) as (es & E).
    + rewrite map_length, seq_length. lia.
    + apply List.Forall_forall. intros q Hq. apply in_map_iff in Hq. destruct Hq as (j & <- & Hj). apply in_seq in Hj. apply CO.
      set (h := (1 / 2 * (1 + c) - 1 / 2 * (1 - c)) / IZR (n - 1)).
      assert (Hn1 : 1 <= IZR (n - 1)) by (apply IZR_le; lia).
      assert (Hh1 : h * IZR (n - 1) = c) by (unfold h; field; lra).
      assert (Hh : 0 <= h) by (apply Rmult_le_pos; [lra|left; apply Rinv_0_lt_compat; lra]).
      pose proof (pos_INR j). assert (INR j <= IZR (n - 1)) by (rewrite INR_IZR_INZ; apply IZR_le; lia).
      split; nra.
    + rewrite E. eauto.
Qed.
Lemma central_found modern k E w amu T p qs : pv_params k E w amu T ->
  PseudoVoigtDistribution k E w amu T = Ok p -> pv_Gamma p <= 10 ^ 6 -> (2 <= List.length qs)%nat ->
  List.Forall (fun q => exists x, pv_cdf p x = Ok q /\ Rabs (x - E) <= pv_Gamma p / 4) qs ->
  exists es, pv_ppf modern p qs = ([], Ok (Some (map Finite es))).
Proof.
  intros P EP HG L C. destruct (valid_of _ _ _ _ _ _ P EP) as [V HE]. apply central_converges; try assumption.
  eapply List.Forall_impl; [|exact C]. intros q (x & Hx & Hb). exists x. rewrite HE. auto.
Qed.
Lemma central_example w : 0 < w -> exists p q q', PseudoVoigtDistribution codata 1 w 12 0 = Ok p /\
  pv_Gamma p = w /\ q < q' /\
  List.Forall (fun q => exists x, pv_cdf p x = Ok q /\ Rabs (x - 1) <= pv_Gamma p / 4) [q; q'].
Proof.
  intros Hw. pose proof (params_with w 0 Hw ltac:(lra)) as P.
  destruct (pv_build _ _ _ _ _ P) as (p & EP & V & HE & _).
  destruct (cold _ _ _ _ _ P EP) as (_ & HG & _). exists p, (7 / 16), (9 / 16).
  split; [exact EP|]. split; [exact HG|]. split; [lra|].
  constructor; [|constructor; [|constructor]]; (destruct (central_of p) with (q := 7 / 16) as (x & Hx & Hb); [exact V|lra|]);
    destruct (central_of p) with (q := 9 / 16) as (y & Hy & Hc); try exact V; try lra; rewrite HE in *; eauto.
Qed.
