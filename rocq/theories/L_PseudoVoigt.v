(** The pseudo-Voigt distribution. *)
From Coq Require Import Reals List ZArith Lra Lia Sorted.
From Coquelicot Require Import Coquelicot.
From Verif Require Import Py Spec M_Num M_Grid M_Constituents M_Thermal M_Dist M_Resonance M_PseudoVoigt
  S_Resonance S_PseudoVoigt L_RInt L_Dist L_Resonance L_Resonance2 L_Resonance3 L_Resonance5 L_Newton.
Import ListNotations.
Open Scope R_scope.

(** ** Fifth root *)
Lemma fifth_root_pos x : 0 < x -> exists y, fifth_root x = Ok y /\ 0 < y /\ y ^ 5 = x.
Proof.
  intros H. unfold fifth_root. destruct (Rlt_dec x 0); [lra|]. destruct (Req_EM_T x 0); [lra|].
  eexists. split; [reflexivity|]. split; [unfold Rpower; apply exp_pos|].
  rewrite <- Rpower_pow by (unfold Rpower; apply exp_pos). rewrite Rpower_mult.
  replace (1 / 5 * INR 5) with 1 by (cbn; field). now apply Rpower_1.
Qed.
Lemma pow5_le a b : 0 <= a -> 0 <= b -> a ^ 5 <= b ^ 5 -> a <= b.
Proof.
  intros Ha Hb H. destruct (Rle_dec a b) as [|N]; [assumption|]. assert (b < a) by lra.
  pose proof (pow_lt_pow a b) as K || idtac. exfalso.
  assert (b ^ 5 < a ^ 5); [|lra]. clear H N.
  assert (b ^ 2 <= a ^ 2) by nra. assert (b ^ 4 <= a ^ 4) by (replace (b ^ 4) with (b ^ 2 * b ^ 2) by ring; replace (a ^ 4) with (a ^ 2 * a ^ 2) by ring; nra).
  replace (b ^ 5) with (b ^ 4 * b) by ring. replace (a ^ 5) with (a ^ 4 * a) by ring.
  assert (0 < a ^ 4) by (apply pow_lt; lra). assert (0 <= b ^ 4) by (apply pow_le; lra). nra.
Qed.
Lemma pow5_inj a b : 0 <= a -> 0 <= b -> a ^ 5 = b ^ 5 -> a = b.
Proof. intros Ha Hb H. apply Rle_antisym; apply pow5_le; try assumption; lra. Qed.

Lemma ln2_pos : 0 < ln 2.
Proof. rewrite <- ln_1. apply ln_increasing; lra. Qed.
Lemma sqrt_ln2_pos : 0 < sqrt (ln 2).
Proof. apply sqrt_lt_R0, ln2_pos. Qed.

Definition Gamma5 (g l : R) : R :=
  g ^ 5 + 2.69269 * g ^ 4 * l + 2.42843 * g ^ 3 * l ^ 2 + 4.47163 * g ^ 2 * l ^ 3 + 0.07842 * g * l ^ 4 + l ^ 5.
Lemma Gamma5_ge g l : 0 <= g -> 0 <= l -> g ^ 5 + l ^ 5 <= Gamma5 g l.
Proof.
  intros Hg Hl. unfold Gamma5.
  assert (0 <= g ^ 4 * l) by (apply Rmult_le_pos; [apply pow_le|]; assumption).
  assert (0 <= g ^ 3 * l ^ 2) by (apply Rmult_le_pos; apply pow_le; assumption).
  assert (0 <= g ^ 2 * l ^ 3) by (apply Rmult_le_pos; apply pow_le; assumption).
  assert (0 <= g * l ^ 4) by (apply Rmult_le_pos; [|apply pow_le]; assumption).
  nra.
Qed.
Lemma get_Gamma_eq g l : get_Gamma g l = fifth_root (Gamma5 g l).
Proof. unfold get_Gamma, Gamma5. f_equal. ring. Qed.

Lemma get_Gamma_spec g l : 0 <= g -> 0 <= l -> 0 < g \/ 0 < l -> exists y,
  get_Gamma g l = Ok y /\ 0 < y /\ y ^ 5 = Gamma5 g l /\ g <= y /\ l <= y.
Proof.
  intros Hg Hl H. pose proof (Gamma5_ge g l Hg Hl) as G.
  assert (0 <= g ^ 5) by (apply pow_le; assumption). assert (0 <= l ^ 5) by (apply pow_le; assumption).
  assert (0 < Gamma5 g l).
  { destruct H; [assert (0 < g ^ 5) by (apply pow_lt; assumption)|assert (0 < l ^ 5) by (apply pow_lt; assumption)]; lra. }
  rewrite get_Gamma_eq. destruct (fifth_root_pos _ H2) as (y & E & Py & E5). exists y.
  split; [exact E|]. split; [exact Py|]. split; [exact E5|]. split; apply pow5_le; lra.
Qed.

Definition eta_of (r : R) : R := 1.36603 * r - 0.47719 * r ^ 2 + 0.11116 * r ^ 3.
Lemma eta_bounds r : 0 <= r <= 1 -> 0 <= eta_of r <= 1.
Proof. intros H. unfold eta_of. split; nra. Qed.
Lemma get_eta_eq G l : G <> 0 -> get_eta G l = Ok (eta_of (l / G)).
Proof.
  intros H. unfold get_eta. destruct (Req_EM_T G 0); [contradiction|]. f_equal. unfold eta_of. field. assumption.
Qed.

(** ** Construction *)
(** The attributes that matter. *)
Definition pv_valid (p : pv) : Prop :=
  0 < pv_Gamma p /\ 0 <= pv_eta p <= 1 /\
  pv_gamma_G p = pv_Gamma p / (2 * sqrt (ln 2)) /\ pv_gamma_L p = pv_Gamma p / 2.

Lemma pv_build k E w amu T : pv_params k E w amu T -> exists p,
  PseudoVoigtDistribution k E w amu T = Ok p /\ pv_valid p /\
  pv_energy p = E /\ pv_Gamma_L p = w /\ pv_gamma p = w / 2 /\
  get_doppler_width k {| mb_amu := amu; mb_effective_temperature := T |} E = Ok (pv_doppler p) /\ 0 <= pv_doppler p /\
  pv_sigma p = pv_doppler p / sqrt 2 /\ pv_Gamma_G p = 2 * sqrt (ln 2) * pv_doppler p /\
  pv_Gamma p ^ 5 = Gamma5 (pv_Gamma_G p) w /\ pv_eta p = eta_of (w / pv_Gamma p) /\
  pv_Gamma_G p <= pv_Gamma p /\ w <= pv_Gamma p.
Proof.
  intros (K & Ha & HT & HE & Hw & Hor). unfold PseudoVoigtDistribution.
  destruct (doppler_value k amu T E K Ha HT) as []. rewrite (doppler_value k amu T E K Ha HT). cbn [bind].
  set (d := E * sqrt (2 * k_kB_eV k * / 10 ^ 6 * T / (amu * k_u_MeV k))).
  assert (Hd : 0 <= d) by (apply Rmult_le_pos; [lra|apply sqrt_pos]).
  assert (Hd' : 0 < T -> 0 < d).
  { intros HT'. eapply (doppler_pos k amu T E); try eassumption. now apply doppler_value. }
  pose proof sqrt_ln2_pos as HS.
  destruct (get_Gamma_spec (2 * sqrt (ln 2) * d) w) as (G & -> & PG & G5 & Gg & Gl).
  { apply Rmult_le_pos; lra. } { assumption. }
  { destruct Hor as [|HT']; [now right|left]. apply Rmult_lt_0_compat; [lra|auto]. }
  cbn [bind]. rewrite get_eta_eq by lra. cbn [bind].
  eexists. split; [reflexivity|]. cbn [pv_energy pv_Gamma_L pv_doppler pv_sigma pv_Gamma_G pv_Gamma pv_eta pv_gamma_G pv_gamma_L pv_gamma].
  assert (B : 0 <= w / G <= 1).
  { split; [apply Rmult_le_pos; [assumption|left; now apply Rinv_0_lt_compat]|].
    apply (Rmult_le_reg_r G); [assumption|]. unfold Rdiv. rewrite Rmult_assoc, Rinv_l by lra. lra. }
  split.
  { unfold pv_valid; cbn. split; [assumption|]. split; [now apply eta_bounds|]. split; [reflexivity|field]. }
  repeat (split; [first [reflexivity|assumption|field]|]). assumption.
Qed.

(** ** PDF and CDF *)
Definition pvf (p : pv) (x : R) : R :=
  (1 - pv_eta p) * norm_pdf (pv_energy p) (pv_gamma_G p / sqrt 2) x +
  pv_eta p * cauchy_pdf (pv_energy p) (1 / 2 * pv_gamma_L p) x.
Definition pvF (p : pv) (x : R) : R :=
  (1 - pv_eta p) * norm_cdf (pv_energy p) (pv_gamma_G p / sqrt 2) x +
  pv_eta p * cauchy_cdf (pv_energy p) (1 / 2 * pv_gamma_L p) x.

Lemma pv_scales p : pv_valid p -> 0 < pv_gamma_G p / sqrt 2 /\ 0 < 1 / 2 * pv_gamma_L p.
Proof.
  intros (HG & _ & EG & EL). pose proof sqrt_ln2_pos. pose proof sqrt2_pos. rewrite EG, EL. split; [|lra].
  apply Rdiv_lt_0_compat; [apply Rdiv_lt_0_compat; lra|assumption].
Qed.
Lemma pv_pdf_ok p x : pv_valid p -> pv_pdf p x = Ok (pvf p x).
Proof.
  intros V. destruct (pv_scales p V). unfold pv_pdf, pseudo_voigt_expression. cbn [d_pdf norm cauchy].
  rewrite !loc_scale_2 by assumption. reflexivity.
Qed.
Lemma pv_cdf_ok p x : pv_valid p -> pv_cdf p x = Ok (pvF p x).
Proof.
  intros V. destruct (pv_scales p V). unfold pv_cdf, pseudo_voigt_expression. cbn [d_cdf norm cauchy].
  rewrite !loc_scale_2 by assumption. reflexivity.
Qed.
Lemma pv_density p : pv_valid p -> density_of (pvf p) (pvF p).
Proof.
  intros V. destruct (pv_scales p V) as [H1 H2]. destruct V as (_ & He & _).
  apply density_mix; [assumption|now apply norm_density|now apply cauchy_density].
Qed.
Lemma pv_is_ok p : pv_valid p -> pv_is p (pvf p) (pvF p).
Proof.
  intros V. split; [intros; now apply pv_pdf_ok|]. split; [intros; now apply pv_cdf_ok|now apply pv_density].
Qed.
Lemma pv_symm p : symmetric_about (pv_energy p) (pvf p).
Proof.
  intros d. unfold pvf. pose proof (norm_symm (pv_energy p) (pv_gamma_G p / sqrt 2) d) as N.
  pose proof (cauchy_symm (pv_energy p) (1 / 2 * pv_gamma_L p) d) as C. rewrite N, C. reflexivity.
Qed.
Lemma pv_median p : pvF p (pv_energy p) = 1 / 2.
Proof. unfold pvF. rewrite norm_median, cauchy_median. field. Qed.
Lemma pv_unimodal p : pv_valid p -> unimodal (pv_energy p) (pvf p).
Proof.
  intros V. destruct (pv_scales p V) as [H1 H2]. destruct V as (_ & He & _).
  pose proof (norm_unimodal (pv_energy p) _ H1) as [N1 N2]. pose proof (cauchy_unimodal (pv_energy p) _ H2) as [C1 C2].
  split; intros a b Ha Hb; unfold pvf; apply Rplus_le_compat; apply Rmult_le_compat_l; try lra; auto.
Qed.

Lemma ln2_lt : ln 2 < 7 / 10.
Proof.
  apply exp_lt_inv. rewrite exp_ln by lra.
  (* exp(7/10) >= 1 + x + x^2/2 + x^3/6 *)
  assert (H : forall x, 0 <= x -> 1 + x + x ^ 2 / 2 + x ^ 3 / 6 <= exp x).
  { intros x Hx. pose proof (exp_ineq1_le x) as E1.
    assert (D1 : forall y, 0 <= y -> 1 + y + y ^ 2 / 2 <= exp y).
    { intros y Hy. destruct (Req_dec y 0) as [->|Ny]; [rewrite exp_0; lra|].
      destruct (MVT_gen (fun t => exp t - t - t ^ 2 / 2) 0 y (fun t => exp t - 1 - t)) as (c & Hc & E).
      - intros t _. auto_derive; [exact Logic.I|eqR; field].
      - intros t _. apply derivable_continuous_pt. reg.
      - rewrite exp_0 in E. pose proof (exp_ineq1_le c). rewrite Rmin_left, Rmax_right in Hc by lra.
        assert (0 <= (exp c - 1 - c) * (y - 0)) by (apply Rmult_le_pos; lra). lra. }
    destruct (Req_dec x 0) as [->|Nx]; [rewrite exp_0; lra|].
    destruct (MVT_gen (fun t => exp t - t - t ^ 2 / 2 - t ^ 3 / 6) 0 x (fun t => exp t - 1 - t - t ^ 2 / 2)) as (c & Hc & E).
    - intros t _. auto_derive; [exact Logic.I|eqR; field].
    - intros t _. apply derivable_continuous_pt. reg.
    - rewrite exp_0 in E. rewrite Rmin_left, Rmax_right in Hc by lra. pose proof (D1 c ltac:(lra)).
      assert (0 <= (exp c - 1 - c - c ^ 2 / 2) * (x - 0)) by (apply Rmult_le_pos; lra). lra. }
  pose proof (H (7 / 10) ltac:(lra)). lra.
Qed.
