(** Convergence of the inversion for all quantiles that are not too far in the tails. *)
From Coq Require Import Reals List ZArith Lra Lia Sorted.
From Coquelicot Require Import Coquelicot.
From Verif Require Import Py Spec M_Num M_Grid M_Constituents M_Thermal M_Dist M_Resonance M_PseudoVoigt
  S_Resonance S_PseudoVoigt L_RInt L_Grid L_Darboux L_Dist L_Resonance L_Resonance2 L_Resonance3 L_Resonance4 L_Resonance5 L_Resonance6 L_Newton L_Newton2 L_Newton3
  L_Coverage L_PseudoVoigt L_PseudoVoigt2 L_PseudoVoigt3 L_PseudoVoigt4 L_PseudoVoigt5 L_PseudoVoigt6 L_PseudoVoigt7.
Import ListNotations.
Open Scope R_scope.

(** ** Tails of the two parts *)
Lemma gauss_tail z : 0 <= z -> 1 / 2 - RInt gauss0 0 z <= gauss0 z * sqrt (2 * PI) / 2.
Proof.
  intros Hz. pose proof PI_RGT_0. assert (SP : 0 < sqrt (2 * PI)) by (apply sqrt_lt_R0; lra).
  set (N := fun t => 1 / 2 + RInt gauss0 0 t). pose proof norm0_density as D. fold N in D.
  set (c := gauss0 z * sqrt (2 * PI) / 2).
  assert (Pc : 0 < c) by (pose proof (dens_pos _ _ D z); unfold c; apply Rmult_lt_0_compat; [apply Rmult_lt_0_compat; assumption|lra]).
  assert (B : forall b, 0 <= b -> N (z + b) <= N z + c).
  { intros b Hb.
    assert (I1 : is_RInt (fun u => gauss0 (u + z)) 0 b (N (z + b) - N z)).
    { pose proof (is_RInt_comp_lin (V := R_NormedModule) gauss0 1 z 0 b (N (z + b) - N z)) as L.
      eapply is_RInt_ext; [|apply L].
      - intros u _. unfold scal; cbn. unfold mult; cbn. rewrite !Rmult_1_l. reflexivity.
      - replace (1 * 0 + z) with z by ring. replace (1 * b + z) with (z + b) by ring. apply (dens_is_RInt _ _ D). }
    assert (I2 : is_RInt (fun u => gauss0 z * sqrt (2 * PI) * gauss0 u) 0 b (gauss0 z * sqrt (2 * PI) * (N b - N 0))).
    { apply (is_RInt_scal (V := R_NormedModule) gauss0). apply (dens_is_RInt _ _ D). }
    pose proof (is_RInt_le _ _ _ _ _ _ Hb I1 I2) as LE.
    assert (K : N b - N 0 <= 1 / 2).
    { pose proof (dens_range _ _ D b). unfold N at 2. rewrite RInt_point_R. lra. }
    assert (K2 : N (z + b) - N z <= gauss0 z * sqrt (2 * PI) * (N b - N 0)).
    { apply LE. intros u Hu. unfold gauss0.
      replace (exp (- z ^ 2 / 2) / sqrt (2 * PI) * sqrt (2 * PI) * (exp (- u ^ 2 / 2) / sqrt (2 * PI)))
        with (exp (- z ^ 2 / 2) * exp (- u ^ 2 / 2) / sqrt (2 * PI)) by (field; lra).
      apply Rmult_le_compat_r; [left; now apply Rinv_0_lt_compat|]. rewrite <- exp_plus. apply exp_le_mono. nra. }
    assert (0 <= gauss0 z * sqrt (2 * PI)) by (unfold c in Pc; lra). unfold c. nra. }
  destruct (Rle_lt_dec 1 (N z + c)) as [A|A]; [unfold N in A; lra|exfalso].
  pose proof (dens_range _ _ D z) as RZ.
  destruct (dens_onto _ _ D ((1 + (N z + c)) / 2) ltac:(lra)) as [x Hx].
  assert (z < x) by (apply (dens_lt_inv _ _ D); lra).
  pose proof (B (x - z) ltac:(lra)) as BX. replace (z + (x - z)) with x in BX by ring. lra.
Qed.
Lemma sqrt_2pi : sqrt (2 * PI) <= 14 / 5.
Proof.
  pose proof PI_upper. replace (14 / 5) with (sqrt (14 / 5 * (14 / 5))) by (apply sqrt_square; lra). apply sqrt_le_1_alt. lra.
Qed.
Lemma gauss_square z : 0 <= z -> (1 / 2 - RInt gauss0 0 z) ^ 2 <= 7 / 10 * gauss0 z.
Proof.
  intros Hz. pose proof (gauss_tail z Hz) as A. pose proof sqrt_2pi as S.
  pose proof (dens_range _ _ norm0_density z) as R1. cbn beta in R1. pose proof (dens_pos _ _ norm0_density z) as P.
  pose proof (dens_le _ _ norm0_density 0 z Hz) as L. cbn beta in L. rewrite RInt_point_R in L.
  set (t := 1 / 2 - RInt gauss0 0 z) in *. assert (0 <= t <= 1 / 2) by (unfold t; lra).
  apply Rle_trans with (1 / 2 * t); [nra|]. nra.
Qed.
Lemma atan_le_id x : 0 < x -> atan x <= x.
Proof.
  intros Hx. destruct (MVT_gen atan 0 x (fun t => / (1 + t ^ 2))) as (c & Hc & E).
  - intros t _. pose proof (pow2_ge_0 t). auto_derive; [exact Logic.I|eqR; field; lra].
  - intros t _. apply derivable_continuous_pt. apply derivable_pt_atan.
  - rewrite atan_0 in E. pose proof (pow2_ge_0 c).
    assert (/ (1 + c ^ 2) <= 1) by (rewrite <- Rinv_1; apply Rinv_le_contravar; lra). nra.
Qed.
Lemma cauchy_square y : 0 <= y -> (1 / 2 - atan y / PI) ^ 2 <= 7 / 4 * / (PI * (1 + y ^ 2)).
Proof.
  intros Hy. pose proof PI_lower as P1. pose proof PI_upper as P2. pose proof (pow2_ge_0 y) as Y2.
  assert (B : 0 <= 1 / 2 - atan y / PI).
  { pose proof (atan_bound y). apply (Rmult_le_reg_r PI); [lra|]. replace ((1 / 2 - atan y / PI) * PI) with (PI / 2 - atan y) by (field; lra). lra. }
  destruct (Rle_dec y 1) as [H|H].
  - assert (T : 0 <= atan y / PI).
    { apply Rmult_le_pos; [|left; apply Rinv_0_lt_compat; lra]. destruct Hy as [Hy| <-]; [|rewrite atan_0; lra].
      left. rewrite <- atan_0. now apply atan_increasing. }
    apply Rle_trans with (1 / 4); [nra|].
    apply Rle_trans with (7 / 4 * / (3.5 * 2)); [lra|]. apply Rmult_le_compat_l; [lra|].
    apply Rinv_le_contravar; [apply Rmult_lt_0_compat; lra|]. apply Rmult_le_compat; try lra. assert (y ^ 2 <= 1) by nra. lra.
  - assert (T : 1 / 2 - atan y / PI <= / (PI * y)).
    { pose proof (atan_inv y ltac:(lra)) as I1. pose proof (atan_le_id (/ y) ltac:(apply Rinv_0_lt_compat; lra)) as I2.
      replace (1 / 2 - atan y / PI) with (atan (/ y) / PI) by (rewrite I1; field; lra).
      replace (/ (PI * y)) with (/ y / PI) by (field; lra). apply Rmult_le_compat_r; [left; apply Rinv_0_lt_compat; lra|exact I2]. }
    apply Rle_trans with ((/ (PI * y)) ^ 2); [apply pow_incr; lra|].
    rewrite pow_inv. apply Rle_trans with (/ (4 / 7 * (PI * (1 + y ^ 2)))); [|right; field; split; nra].
    apply Rinv_le_contravar; [nra|]. rewrite Rpow_mult_distr. 
    apply Rle_trans with (4 / 7 * (PI * (2 * y ^ 2))); [apply Rmult_le_compat_l; [lra|]; apply Rmult_le_compat_l; [lra|nra]|].
    replace (4 / 7 * (PI * (2 * y ^ 2))) with (8 / 7 * PI * y ^ 2) by field. apply Rmult_le_compat_r; nra.
Qed.

(** ** The density at a quantile *)
Lemma sigma_half p : pv_valid p -> pv_gamma_G p / sqrt 2 <= pv_Gamma p / 2.
Proof.
  intros (HG & _ & EG & _). rewrite EG. pose proof sqrt_ln2_pos as H1. pose proof sqrt2_pos as H2. pose proof ln2_half as H3.
  assert (1 <= sqrt (ln 2) * sqrt 2).
  { rewrite <- sqrt_mult by lra. rewrite <- sqrt_1 at 1. apply sqrt_le_1_alt. lra. }
  replace (pv_Gamma p / (2 * sqrt (ln 2)) / sqrt 2) with (pv_Gamma p / 2 * / (sqrt (ln 2) * sqrt 2)) by (field; lra).
  assert (/ (sqrt (ln 2) * sqrt 2) <= 1) by (rewrite <- Rinv_1; apply Rinv_le_contravar; lra). nra.
Qed.
Lemma tail_density p x : pv_valid p -> pv_energy p <= x -> (1 - pvF p x) ^ 2 <= 7 / 16 * pv_Gamma p * pvf p x.
Proof.
  intros V Hx. pose proof V as (HG & He & EG & EL). destruct (pv_scales p V) as [S1 S2]. pose proof (sigma_half p V) as SH.
  set (sg := pv_gamma_G p / sqrt 2) in *. set (g := 1 / 2 * pv_gamma_L p) in *. set (m := pv_energy p) in *. set (e := pv_eta p) in *.
  assert (Eg : g = pv_Gamma p / 4) by (unfold g; rewrite EL; field).
  assert (A : (1 - norm_cdf m sg x) ^ 2 <= 7 / 16 * pv_Gamma p * norm_pdf m sg x).
  { unfold norm_cdf, norm_pdf. set (z := (x - m) / sg). assert (Hz : 0 <= z) by (apply Rmult_le_pos; [lra|left; now apply Rinv_0_lt_compat]).
    pose proof (gauss_square z Hz) as G. pose proof (dens_pos _ _ norm0_density z) as P. 
    replace (1 - (1 / 2 + RInt gauss0 0 z)) with (1 / 2 - RInt gauss0 0 z) by lra.
    eapply Rle_trans; [exact G|]. replace (7 / 16 * pv_Gamma p * (gauss0 z / sg)) with (gauss0 z * (7 / 16 * (pv_Gamma p / sg))) by (field; lra).
    rewrite (Rmult_comm (7 / 10)). apply Rmult_le_compat_l; [lra|].
    assert (2 <= pv_Gamma p / sg); [|lra]. apply (Rmult_le_reg_r sg); [lra|]. replace (pv_Gamma p / sg * sg) with (pv_Gamma p) by (field; lra). lra. }
  assert (B : (1 - cauchy_cdf m g x) ^ 2 <= 7 / 16 * pv_Gamma p * cauchy_pdf m g x).
  { unfold cauchy_cdf, cauchy_pdf. set (y := (x - m) / g). assert (Hy : 0 <= y) by (apply Rmult_le_pos; [lra|left; now apply Rinv_0_lt_compat]).
    pose proof (cauchy_square y Hy) as G. replace (1 - (1 / 2 + atan y / PI)) with (1 / 2 - atan y / PI) by lra.
    eapply Rle_trans; [exact G|]. right. pose proof (pow2_ge_0 y). pose proof PI_RGT_0. replace (pv_Gamma p) with (4 * g) by lra. field. repeat split; nra. }
  unfold pvF, pvf. fold m sg g e.
  set (a := norm_cdf m sg x) in *. set (b := cauchy_cdf m g x) in *.
  apply Rle_trans with ((1 - e) * (1 - a) ^ 2 + e * (1 - b) ^ 2).
  - assert (0 <= e * (1 - e) * (a - b) ^ 2) by (apply Rmult_le_pos; [nra|apply pow2_ge_0]). nra.
  - assert ((1 - e) * (1 - a) ^ 2 <= (1 - e) * (7 / 16 * pv_Gamma p * norm_pdf m sg x)) by (apply Rmult_le_compat_l; lra).
    assert (e * (1 - b) ^ 2 <= e * (7 / 16 * pv_Gamma p * cauchy_pdf m g x)) by (apply Rmult_le_compat_l; lra). lra.
Qed.
(** A quantile with probability at least [s] on both sides. *)
Lemma quantile_density p q s : pv_valid p -> 0 < s <= q -> q <= 1 - s -> dense (pvf p) (pvF p) (16 / 7 * s ^ 2 / pv_Gamma p) q.
Proof.
  intros V Hs Hq. pose proof V as (HG & _). pose proof (pv_density p V) as D.
  assert (R1 : forall x, pv_energy p <= x -> s <= 1 - pvF p x -> 16 / 7 * s ^ 2 / pv_Gamma p <= pvf p x).
  { intros x Hx Hb. pose proof (tail_density p x V Hx) as T.
    assert (s ^ 2 <= (1 - pvF p x) ^ 2) by (apply pow_incr; lra).
    apply (Rmult_le_reg_r (pv_Gamma p)); [exact HG|].
    replace (16 / 7 * s ^ 2 / pv_Gamma p * pv_Gamma p) with (16 / 7 * s ^ 2) by (field; lra). lra. }
  destruct (dens_onto _ _ D q ltac:(lra)) as [x Hx]. exists x. split; [exact Hx|].
  destruct (Rle_dec (pv_energy p) x) as [C|C]; [apply R1; lra|].
  pose proof (symm_cdf _ _ _ (pv_energy p - x) D (pv_symm p) (pv_median p)) as SY.
  pose proof (pv_symm p (pv_energy p - x)) as SF.
  replace (pv_energy p - (pv_energy p - x)) with x in * by ring.
  pose proof (R1 (pv_energy p + (pv_energy p - x)) ltac:(lra) ltac:(lra)) as K. congruence || (rewrite SF in K; exact K) || (rewrite <- SF in K; exact K).
Qed.

(** ** Convergence *)
Lemma dense_enough p lo : pv_valid p -> 0 < lo -> / 2 ^ 72 <= pv_Gamma p * lo ^ 2 -> pvf p (pv_energy p) / 2 / 4 ^ 49 / lo ^ 2 < tol.
Proof.
  intros V Hlo H. pose proof V as (HG & _). pose proof (pv_peak p V) as K. pose proof PI_lower as P1.
  assert (L2 : 0 < lo ^ 2) by (apply pow_lt; lra).
  assert (K' : pvf p (pv_energy p) * pv_Gamma p <= 4 / 3).
  { apply Rle_trans with (4 / (PI * pv_Gamma p) * pv_Gamma p); [apply Rmult_le_compat_r; lra|].
    replace (4 / (PI * pv_Gamma p) * pv_Gamma p) with (4 / PI) by (field; lra).
    apply Rmult_le_compat_l; [lra|]. apply Rinv_le_contravar; lra. }
  set (y := pvf p (pv_energy p)) in *. 
  assert (B : y / 2 / 4 ^ 49 / lo ^ 2 <= 2 / 3 / 4 ^ 49 * 2 ^ 72).
  { apply Rle_trans with (2 / 3 / 4 ^ 49 * / (pv_Gamma p * lo ^ 2)).
    - replace (y / 2 / 4 ^ 49 / lo ^ 2) with (y * pv_Gamma p * (/ 2 / 4 ^ 49 / (pv_Gamma p * lo ^ 2))) by (field; lra).
      replace (2 / 3 / 4 ^ 49 * / (pv_Gamma p * lo ^ 2)) with (4 / 3 * (/ 2 / 4 ^ 49 / (pv_Gamma p * lo ^ 2))) by (field; lra).
      apply Rmult_le_compat_r; [|exact K']. assert (0 < / 4 ^ 49) by (apply Rinv_0_lt_compat; lra).
      left. apply Rdiv_lt_0_compat; [unfold Rdiv; lra|]. now apply Rmult_lt_0_compat.
    - apply Rmult_le_compat_l; [apply Rmult_le_pos; [lra|left; apply Rinv_0_lt_compat; lra]|].
      rewrite <- (Rinv_inv (2 ^ 72)). apply Rinv_le_contravar; [apply Rinv_0_lt_compat; lra|exact H]. }
  eapply Rle_lt_trans; [exact B|]. unfold tol. lra.
Qed.
Lemma dense_converges modern p lo qs : pv_valid p -> 0 < lo -> / 2 ^ 72 <= pv_Gamma p * lo ^ 2 -> (2 <= List.length qs)%nat ->
  List.Forall (dense (pvf p) (pvF p) lo) qs -> exists es, pv_ppf modern p qs = ([], Ok (Some (map Finite es))).
Proof.
  intros V Hlo HG L C.
  destruct (dense_array _ _ _ (pv_density p V) (pv_unimodal p V) (pv_median p) lo qs) as (x & conv & E & T); try assumption.
  - intros ->. cbn in L. lia.
  - now apply dense_enough.
  - exists x. destruct qs as [|q [|q' qs]]; try (cbn in L; lia). unfold pv_ppf. rewrite (array_newton_pv p V), E. cbn [bind].
    rewrite T. reflexivity.
Qed.
Lemma dense_converges_scalar p lo q : pv_valid p -> 0 < lo -> / 2 ^ 72 <= pv_Gamma p * lo ^ 2 -> dense (pvf p) (pvF p) lo q ->
  exists e, pv_ppf_scalar p q = ([], Ok (Some [Finite e])).
Proof.
  intros V Hlo HG C.
  destruct (dense_scalar _ _ _ (pv_density p V) (pv_unimodal p V) (pv_median p) lo q) as (x & E); try assumption.
  - left. now apply dense_enough.
  - exists x. unfold pv_ppf_scalar. rewrite (scalar_newton p V), E. reflexivity.
Qed.

Lemma coverage_dense p q c : pv_valid p -> 0 <= c < 1 -> 1 / 2 * (1 - c) <= q <= 1 / 2 * (1 + c) ->
  dense (pvf p) (pvF p) (4 / 7 * (1 - c) ^ 2 / pv_Gamma p) q.
Proof.
  intros V Hc Hq. pose proof (quantile_density p q (1 / 2 * (1 - c)) V ltac:(lra) ltac:(lra)) as H.
  replace (4 / 7 * (1 - c) ^ 2) with (16 / 7 * (1 / 2 * (1 - c)) ^ 2) by field. exact H.
Qed.
Lemma coverage_enough p c : pv_valid p -> 0 <= c < 1 -> pv_Gamma p <= 2 ^ 70 * (1 - c) ^ 4 ->
  let lo := 4 / 7 * (1 - c) ^ 2 / pv_Gamma p in 0 < lo /\ / 2 ^ 72 <= pv_Gamma p * lo ^ 2.
Proof.
  intros (HG & _) Hc H lo. assert (P : 0 < (1 - c) ^ 2) by (apply pow_lt; lra). split.
  - unfold lo. apply Rdiv_lt_0_compat; lra.
  - unfold lo. replace (pv_Gamma p * (4 / 7 * (1 - c) ^ 2 / pv_Gamma p) ^ 2) with (16 / 49 * ((1 - c) ^ 4 / pv_Gamma p)) by (field; lra).
    assert (/ 2 ^ 70 <= (1 - c) ^ 4 / pv_Gamma p); [|lra].
    apply (Rmult_le_reg_r (pv_Gamma p)); [exact HG|]. replace ((1 - c) ^ 4 / pv_Gamma p * pv_Gamma p) with ((1 - c) ^ 4) by (field; lra). lra.
Qed.
Lemma wide_coverage modern k i m amu T fin r w p c : PseudoVoigt modern k i m amu T fin = Ok r -> width m = Ok w ->
  pv_params k (r_energy r) w amu T -> PseudoVoigtDistribution k (r_energy r) w amu T = Ok p -> 0 <= c < 1 -> pv_Gamma p <= 2 ^ 70 * (1 - c) ^ 4 ->
  (exists ws a b, coverage_interval r c = (ws, Ok (Finite a, Finite b)) /\ inverted ws) /\
  (forall n, (2 <= n)%Z -> exists es, res_probability_grid r (Coverage c) n = ([], Ok (Some (map Finite es)))).
Proof.
  intros H W P EP Hc HG. destruct (pv_res_density _ _ _ _ _ _ _ _ _ H W P) as (p' & EP' & V & HE & HP & HDi & HV & HC).
  rewrite EP in EP'. injection EP' as <-. destruct (coverage_enough p c V Hc HG) as [L1 L2].
  pose proof (fun q => coverage_dense p q c V Hc) as CO. set (lo := 4 / 7 * (1 - c) ^ 2 / pv_Gamma p) in *.
  split.
  - destruct (dense_converges modern p lo [1 / 2 * (1 - c); 1 / 2 * (1 + c)] V L1 L2) as (es & E); [cbn; lia|constructor; [apply CO; lra|constructor; [apply CO; lra|constructor]]|].
    destruct (ppf_inverted p V _ _ _ _ E ltac:(intros [])) as (rs & E' & _ & N & _).
    inversion N as [|? a ? rs1 Na N1]; subst. inversion N1 as [|? b ? rs2 Nb N2]; subst. inversion N2; subst.
    rewrite E' in E. unfold coverage_interval. rewrite HP, HDi. cbn [pv_distribution d_ppf]. rewrite E. cbn [map Rbar_is_inf].
    destruct (Rbar_negative a).
    + rewrite HDi in HC. cbn [pv_distribution d_cdf] in *. rewrite HC. do 3 eexists. split; [reflexivity|]. intros [K|[]]. discriminate.
    + do 3 eexists. split; [reflexivity|]. intros [].
  - intros n Hn. unfold res_probability_grid. cbn [bind]. rewrite linspace_ok by exact Hn. rewrite HP, HDi. cbn [pv_distribution d_ppf].
    destruct (dense_converges modern p lo (map (fun i0 => 1 / 2 * (1 - c) + INR i0 * ((1 / 2 * (1 + c) - 1 / 2 * (1 - c)) / IZR (n - 1))) (seq 0 (Z.to_nat n))) V L1 L2) as (es & E).
    + rewrite map_length, seq_length. lia.
    + apply List.Forall_forall. intros q Hq. apply in_map_iff in Hq. destruct Hq as (j & <- & Hj). apply in_seq in Hj. apply CO.
      set (h := (1 / 2 * (1 + c) - 1 / 2 * (1 - c)) / IZR (n - 1)).
      assert (Hn1 : 1 <= IZR (n - 1)) by (apply IZR_le; lia).
      assert (Hh1 : h * IZR (n - 1) = c) by (unfold h; field; lra).
      assert (Hh : 0 <= h) by (apply Rmult_le_pos; [lra|left; apply Rinv_0_lt_compat; lra]).
      pose proof (pos_INR j). assert (INR j <= IZR (n - 1)) by (rewrite INR_IZR_INZ; apply IZR_le; lia).
      split; nra.
    + rewrite E. eauto.
Qed.

Lemma dense_found modern k E w amu T p lo qs : pv_params k E w amu T ->
  PseudoVoigtDistribution k E w amu T = Ok p -> 0 < lo -> / 2 ^ 72 <= pv_Gamma p * lo ^ 2 -> (2 <= List.length qs)%nat ->
  List.Forall (fun q => exists x f, pv_cdf p x = Ok q /\ pv_pdf p x = Ok f /\ lo <= f) qs ->
  exists es, pv_ppf modern p qs = ([], Ok (Some (map Finite es))).
Proof.
  intros P EP HL HG L C. destruct (valid_of _ _ _ _ _ _ P EP) as [V HE]. apply (dense_converges modern p lo); try assumption.
  eapply List.Forall_impl; [|exact C]. intros q (x & f & Hx & Hf & Hb).
  rewrite pv_cdf_ok in Hx by exact V. rewrite pv_pdf_ok in Hf by exact V. injection Hx as Hx. injection Hf as Hf. exists x. split; [exact Hx|lra].
Qed.
Lemma dense_found_scalar k E w amu T p q x f : pv_params k E w amu T ->
  PseudoVoigtDistribution k E w amu T = Ok p -> pv_cdf p x = Ok q -> pv_pdf p x = Ok f -> / 2 ^ 72 <= pv_Gamma p * f ^ 2 ->
  exists e, pv_ppf_scalar p q = ([], Ok (Some [Finite e])).
Proof.
  intros P EP Hx Hf HG. destruct (valid_of _ _ _ _ _ _ P EP) as [V HE].
  rewrite pv_cdf_ok in Hx by exact V. rewrite pv_pdf_ok in Hf by exact V. injection Hx as Hx. injection Hf as Hf.
  apply (dense_converges_scalar p f); [exact V| |exact HG|exists x; split; [exact Hx|lra]].
  rewrite <- Hf. apply (dens_pos _ _ (pv_density p V)).
Qed.
Lemma tail_density_ok k E w amu T p x q f : pv_params k E w amu T -> PseudoVoigtDistribution k E w amu T = Ok p ->
  pv_cdf p x = Ok q -> pv_pdf p x = Ok f -> 16 / 7 * (Rmin q (1 - q)) ^ 2 <= pv_Gamma p * f.
Proof.
  intros P EP Hx Hf. destruct (valid_of _ _ _ _ _ _ P EP) as [V HE]. pose proof V as (HG & _).
  rewrite pv_cdf_ok in Hx by exact V. rewrite pv_pdf_ok in Hf by exact V. injection Hx as Hx. injection Hf as Hf.
  pose proof (dens_range _ _ (pv_density p V) x) as RG. rewrite Hx in RG.
  pose proof (Rmin_l q (1 - q)). pose proof (Rmin_r q (1 - q)).
  assert (0 < Rmin q (1 - q)) by (apply Rmin_pos; lra).
  destruct (quantile_density p q (Rmin q (1 - q)) V ltac:(lra) ltac:(lra)) as (y & Hy & B).
  assert (y = x) by (apply (dens_inj _ _ (pv_density p V)); lra). subst y. rewrite Hf in B.
  set (s := Rmin q (1 - q)) in *.
  replace (16 / 7 * s ^ 2) with (pv_Gamma p * (16 / 7 * s ^ 2 / pv_Gamma p)) by (field; lra).
  apply Rmult_le_compat_l; lra.
Qed.
