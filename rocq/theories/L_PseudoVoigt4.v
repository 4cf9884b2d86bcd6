(** Construction of pseudo-Voigt and Voigt resonances, limiting cases. *)
From Coq Require Import Reals List ZArith Lra Lia Sorted.
From Coquelicot Require Import Coquelicot.
From Verif Require Import Py Spec M_Num M_Grid M_Constituents M_Thermal M_Dist M_Resonance M_PseudoVoigt
  S_Resonance S_PseudoVoigt L_RInt L_Grid L_Darboux L_Dist L_Resonance L_Resonance2 L_Resonance3 L_Resonance4 L_Resonance5 L_Resonance6 L_Newton
  L_PseudoVoigt L_PseudoVoigt2 L_PseudoVoigt3.
Import ListNotations.
Open Scope R_scope.

(** ** Construction *)
Lemma pseudo_voigt_inv modern k i m amu T fin r w : PseudoVoigt modern k i m amu T fin = Ok r -> width m = Ok w ->
  pv_params k (r_energy r) w amu T ->
  exists r0 p, Resonance k i m fin NoRecoil = Ok r0 /\ PseudoVoigtDistribution k (r_energy r) w amu T = Ok p /\
    r = with_dist r0 (pv_distribution modern p) [] /\ pv_valid p /\ pv_energy p = r_energy r.
Proof.
  unfold PseudoVoigt. destruct (Resonance k i m fin NoRecoil) as [r0| |] eqn:ER; cbn [bind]; try discriminate.
  intros H W P. rewrite W in H. cbn [bind] in H.
  destruct (PseudoVoigtDistribution k (r_energy r0) w amu T) as [p| |] eqn:EP; cbn [bind] in H; try discriminate.
  injection H as <-. cbn in P. destruct (pv_build _ _ _ _ _ P) as (p' & EP' & V & HE & _).
  rewrite EP in EP'. injection EP' as <-. exists r0, p. auto.
Qed.
Lemma voigt_inv modern k i m amu T fin r w : Voigt modern k i m amu T fin = Ok r -> width m = Ok w ->
  pv_params k (r_energy r) w amu T ->
  exists r0 p, Resonance k i m fin NoRecoil = Ok r0 /\ PseudoVoigtDistribution k (r_energy r) w amu T = Ok p /\
    r = with_dist r0 (voigt_distribution modern p) [] /\ pv_valid p /\ pv_energy p = r_energy r.
Proof.
  unfold Voigt, PseudoVoigt. destruct (Resonance k i m fin NoRecoil) as [r0| |] eqn:ER; cbn [bind]; try discriminate.
  intros H W P. rewrite W in H. cbn [bind] in H.
  destruct (PseudoVoigtDistribution k (r_energy r0) w amu T) as [p| |] eqn:EP; cbn [bind] in H; try discriminate.
  cbn [with_dist r_energy] in H. rewrite EP in H. cbn [bind] in H.
  injection H as <-. cbn in P. destruct (pv_build _ _ _ _ _ P) as (p' & EP' & V & HE & _).
  rewrite EP in EP'. injection EP' as <-. exists r0, p. auto.
Qed.
Lemma pseudo_voigt_ok modern k i m amu T fin r0 w : Resonance k i m fin NoRecoil = Ok r0 -> width m = Ok w ->
  pv_params k (r_energy r0) w amu T -> exists r, PseudoVoigt modern k i m amu T fin = Ok r /\
    r_energy r = r_energy r0 /\ r_integrated r = r_integrated r0.
Proof.
  intros H W P. destruct (pv_build _ _ _ _ _ P) as (p & EP & _). unfold PseudoVoigt. rewrite H. cbn [bind]. rewrite W. cbn [bind].
  rewrite EP. cbn [bind]. eexists. split; [reflexivity|]. auto.
Qed.
Lemma voigt_ok modern k i m amu T fin r0 w : Resonance k i m fin NoRecoil = Ok r0 -> width m = Ok w ->
  pv_params k (r_energy r0) w amu T -> exists r, Voigt modern k i m amu T fin = Ok r /\
    r_energy r = r_energy r0 /\ r_integrated r = r_integrated r0.
Proof.
  intros H W P. destruct (pv_build _ _ _ _ _ P) as (p & EP & _). unfold Voigt, PseudoVoigt. rewrite H. cbn [bind]. rewrite W. cbn [bind].
  rewrite EP. cbn [bind with_dist r_energy]. rewrite EP. cbn [bind]. eexists. split; [reflexivity|]. auto.
Qed.
Lemma pv_nothing k E amu : constants_ok k -> 0 < amu -> PseudoVoigtDistribution k E 0 amu 0 = NaN.
Proof.
  intros K Ha. unfold PseudoVoigtDistribution. rewrite doppler_value by (assumption || lra). cbn [bind].
  assert (Z : E * sqrt (2 * k_kB_eV k * / 10 ^ 6 * 0 / (amu * k_u_MeV k)) = 0).
  { replace (2 * k_kB_eV k * / 10 ^ 6 * 0 / (amu * k_u_MeV k)) with 0 by (unfold Rdiv; ring). rewrite sqrt_0. ring. }
  rewrite Z, get_Gamma_eq. replace (Gamma5 (2 * sqrt (ln 2) * 0) 0) with 0 by (unfold Gamma5; ring).
  unfold fifth_root. destruct (Rlt_dec 0 0); [lra|]. destruct (Req_EM_T 0 0); [|lra]. cbn [bind].
  unfold get_eta. destruct (Req_EM_T 0 0); [reflexivity|lra].
Qed.

Lemma pv_res_density modern k i m amu T fin r w : PseudoVoigt modern k i m amu T fin = Ok r -> width m = Ok w ->
  pv_params k (r_energy r) w amu T -> exists p, PseudoVoigtDistribution k (r_energy r) w amu T = Ok p /\ pv_valid p /\
    pv_energy p = r_energy r /\ r_params r = [] /\ r_dist r = pv_distribution modern p /\
    cross_section_is r (fun E => r_integrated r * pvf p E) /\ (forall x, d_cdf (r_dist r) [] x = Ok (pvF p x)).
Proof.
  intros H W P. destruct (pseudo_voigt_inv _ _ _ _ _ _ _ _ _ H W P) as (r0 & p & _ & EP & -> & V & HE).
  exists p. split; [exact EP|]. split; [exact V|]. split; [exact HE|]. split; [reflexivity|]. split; [reflexivity|]. split.
  - intros E. unfold res_call. cbn. rewrite pv_pdf_ok by assumption. reflexivity.
  - intros x. cbn. now apply pv_cdf_ok.
Qed.

(** ** C36 *)
Lemma pv_facts k E w amu T : pv_params k E w amu T -> exists p d f F,
  PseudoVoigtDistribution k E w amu T = Ok p /\ pv_is p f F /\
  get_doppler_width k {| mb_amu := amu; mb_effective_temperature := T |} E = Ok d /\
  0 <= pv_eta p <= 1 /\ 0 < pv_Gamma p /\ w <= pv_Gamma p /\ 2 * sqrt (ln 2) * d <= pv_Gamma p /\
  symmetric_about E f /\ integral_over_axis f 1 /\ (forall a b, a < b -> F a < F b) /\
  (forall a b, is_RInt f a b (F b - F a)).
Proof.
  intros P. destruct (pv_build _ _ _ _ _ P) as (p & EP & V & HE & HL & _ & HD & _ & _ & HG & _ & _ & HGG & HGL).
  exists p, (pv_doppler p), (pvf p), (pvF p). split; [exact EP|]. split; [now apply pv_is_ok|]. split; [exact HD|].
  split; [apply V|]. split; [apply V|]. split; [assumption|]. split; [now rewrite <- HG|].
  split; [rewrite <- HE; apply pv_symm|]. pose proof (pv_density p V) as D.
  split; [apply (dens_axis _ _ D)|]. split; [apply (dens_incr _ _ D)|apply (dens_is_RInt _ _ D)].
Qed.

(** ** C37 *)
Lemma gauss_limit_attributes k E amu T p : pv_params k E 0 amu T -> PseudoVoigtDistribution k E 0 amu T = Ok p ->
  exists d, get_doppler_width k {| mb_amu := amu; mb_effective_temperature := T |} E = Ok d /\ 0 < d /\
  pv_eta p = 0 /\ pv_gamma_G p = d.
Proof.
  intros P EP. destruct (pv_build _ _ _ _ _ P) as (p' & EP' & V & HE & HL & _ & HD & Hd & _ & HG & H5 & Heta & HGG & HGL).
  rewrite EP in EP'. injection EP' as <-. exists (pv_doppler p). split; [exact HD|].
  destruct P as (K & Ha & HT & HE' & _ & [?|HT']); [lra|].
  pose proof (doppler_pos _ _ _ _ _ K Ha HT' HE' HD) as Pd. split; [exact Pd|].
  destruct V as (VG & Ve & EG & EL). pose proof sqrt_ln2_pos.
  assert (G : pv_Gamma p = pv_Gamma_G p).
  { apply pow5_inj; [lra|rewrite HG; apply Rmult_le_pos; lra|]. rewrite H5. unfold Gamma5. ring. }
  split; [rewrite Heta; unfold eta_of, Rdiv; ring|]. rewrite EG, G, HG. field. lra.
Qed.
Lemma gauss_limit modern k i m amu T fin r r' : PseudoVoigt modern k i m amu T fin = Ok r -> Gauss k i m amu T fin = Ok r' ->
  width m = Ok 0 -> pv_params k (r_energy r) 0 amu T ->
  r_integrated r = r_integrated r' /\ r_energy r = r_energy r' /\
  (forall E b, res_call r E b = res_call r' E b) /\
  (forall E, d_cdf (r_dist r) (r_params r) E = d_cdf (r_dist r') (r_params r') E).
Proof.
  intros H H' W P. destruct (pseudo_voigt_inv _ _ _ _ _ _ _ _ _ H W P) as (r0 & p & ER & EP & E & V & HE).
  destruct (gauss_inv _ _ _ _ _ _ _ H') as (r0' & d' & ER' & Ed' & E'). rewrite ER in ER'. injection ER' as <-.
  destruct (gauss_limit_attributes _ _ _ _ _ P EP) as (d & Ed & Pd & Heta & HG).
  assert (ERr : r_energy r = r_energy r0) by (rewrite E; reflexivity).
  rewrite ERr in Ed. rewrite Ed in Ed'. injection Ed' as <-.
  split; [rewrite E, E'; reflexivity|]. split; [rewrite E, E'; reflexivity|].
  assert (Vf : forall x, pvf p x = norm_pdf (r_energy r0) (d / sqrt 2) x).
  { intros x. unfold pvf. rewrite Heta, HG, HE, ERr. ring. }
  assert (VF : forall x, pvF p x = norm_cdf (r_energy r0) (d / sqrt 2) x).
  { intros x. unfold pvF. rewrite Heta, HG, HE, ERr. ring. }
  split.
  - intros x b. rewrite E, E'. unfold res_call. cbn [with_dist r_dist r_params r_energy r_integrated pv_distribution d_pdf no_params norm].
    rewrite pv_pdf_ok by assumption. rewrite loc_scale_2 by now apply scale_pos. cbn. now rewrite Vf.
  - intros x. rewrite E, E'. cbn [with_dist r_dist r_params pv_distribution d_cdf no_params norm].
    rewrite pv_cdf_ok by assumption. rewrite loc_scale_2 by now apply scale_pos. now rewrite VF.
Qed.

(** At vanishing temperature: a Cauchy distribution of half the width. *)
Lemma cold k E w amu p : pv_params k E w amu 0 -> PseudoVoigtDistribution k E w amu 0 = Ok p ->
  0 < w /\ pv_Gamma p = w /\ pv_eta p = 1 /\ pv_sigma p = 0 /\ pv_gamma p = w / 2 /\ pv_valid p /\ pv_energy p = E /\
  (forall x, pvf p x = cauchy_pdf E (w / 4) x) /\ (forall x, pvF p x = cauchy_cdf E (w / 4) x).
Proof.
  intros P EP. destruct (pv_build _ _ _ _ _ P) as (p' & EP' & V & HE & HL & Hg & HD & Hd & Hs & HG & H5 & Heta & HGG & HGL).
  rewrite EP in EP'. injection EP' as <-.
  destruct P as (K & Ha & _ & HE' & Hw & [Hw'|?]); [|lra]. split; [exact Hw'|].
  rewrite doppler_value in HD by (assumption || lra). injection HD as HD.
  assert (Z : pv_doppler p = 0).
  { rewrite <- HD. replace (2 * k_kB_eV k * / (10 * (10 * (10 * (10 * (10 * (10 * 1)))))) * 0 / (amu * k_u_MeV k)) with 0 by (unfold Rdiv; ring). rewrite sqrt_0. ring. }
  pose proof V as (VG & Ve & EG & EL).
  assert (G : pv_Gamma p = w).
  { apply pow5_inj; [lra|lra|]. rewrite H5, HG, Z. unfold Gamma5. ring. }
  assert (H1 : pv_eta p = 1).
  { rewrite Heta, G. replace (w / w) with 1 by (field; lra). unfold eta_of. lra. }
  split; [exact G|]. split; [exact H1|]. split; [rewrite Hs, Z; unfold Rdiv; ring|]. split; [exact Hg|].
  split; [exact V|]. split; [exact HE|].
  assert (S : 1 / 2 * pv_gamma_L p = w / 4) by (rewrite EL, G; field).
  split; intros x; unfold pvf, pvF; rewrite H1, S, HE; ring.
Qed.
Lemma lorentz_limit modern k i m amu fin r r' w : PseudoVoigt modern k i m amu 0 fin = Ok r -> BreitWigner k i m fin = Ok r' ->
  width m = Ok w -> pv_params k (r_energy r) w amu 0 -> exists f f',
  cross_section_is r f /\ cross_section_is r' f' /\ r_integrated r = r_integrated r' /\
  f (r_energy r) = 2 * f' (r_energy r) /\
  (forall x, f x = r_integrated r * ((w / 4) / (PI * ((x - r_energy r) ^ 2 + (w / 4) ^ 2)))) /\
  (forall x, f' x = r_integrated r * ((w / 2) / (PI * ((x - r_energy r) ^ 2 + (w / 2) ^ 2)))).
Proof.
  intros H H' W P. destruct (pseudo_voigt_inv _ _ _ _ _ _ _ _ _ H W P) as (r0 & p & ER & EP & E & V & HE).
  destruct (breit_wigner_inv _ _ _ _ _ H') as (r0' & w' & ER' & W' & E'). rewrite ER in ER'. injection ER' as <-.
  rewrite W in W'. injection W' as <-.
  destruct (cold _ _ _ _ _ P EP) as (Hw & _ & _ & _ & _ & _ & _ & Vf & _).
  assert (ERr : r_energy r = r_energy r0) by (rewrite E; reflexivity).
  exists (fun x => r_integrated r0 * cauchy_pdf (r_energy r0) (w / 4) x), (fun x => r_integrated r0 * cauchy_pdf (r_energy r0) (w / 2) x).
  split.
  { intros x. rewrite E. unfold res_call. cbn [with_dist r_dist r_params r_energy r_integrated pv_distribution d_pdf no_params].
    rewrite pv_pdf_ok by assumption. cbn. rewrite Vf, ERr. reflexivity. }
  split.
  { intros x. rewrite E'. unfold res_call. cbn [with_dist r_dist r_params r_energy r_integrated cauchy d_pdf].
    rewrite loc_scale_2 by lra. cbn. replace (1 / 2 * w) with (w / 2) by field. reflexivity. }
  split; [rewrite E, E'; reflexivity|].
  assert (EI : r_integrated r = r_integrated r0) by (rewrite E; reflexivity). rewrite ERr, EI.
  split; [rewrite !cauchy_peak; pose proof PI_RGT_0; field; lra|].
  split; intros x; rewrite cauchy_pdf_alt by lra; reflexivity.
Qed.
